(** * The documented loop inside execute_act, and layers written as in the docstring. *)
From Coq Require Import Permutation Sorted.
From Verif Require Import Base PyTree Tensor Num Utils States Controller Layers Wf History ElementSpec StateSpec LayerSpec.
From Verif Require Import BaseFacts PyTreeFacts TensorFacts ControllerFacts IterateFacts ResetFacts HistoryFacts StateFacts LayerFacts.

Section LayerFacts2.
  Context {N : numsys}.
  Notation st := (state N).
  Notation tr := (tree (array N)).

  Lemma idle_has_cached (c : st) : NoDup (dkeys (updates c)) -> (idle c <-> has_cached_updates c = false).
  Proof.
    intros ND. unfold idle, has_cached_updates. split.
    - intros H. apply not_true_iff_false. rewrite existsb_exists. intros ([k u] & Hin & Hn). cbn [snd] in Hn.
      rewrite (H k u) in Hn by now apply dget_nodup. discriminate.
    - intros H k u Hu. apply dget_In in Hu. apply not_true_iff_false in H. rewrite existsb_exists in H.
      destruct (is_none u) eqn:E; [reflexivity|]. exfalso. apply H. exists (k, u). split; [exact Hu|]. cbn. now rewrite E.
  Qed.
  Lemma clean_committed (c : st) : NoDup (dkeys (updates c)) -> updates c <> [] -> idle c -> validate_all_committed c = Ok tt.
  Proof.
    intros ND Ne I. unfold validate_all_committed. rewrite (proj1 (idle_has_cached c ND) I).
    assert (E : updates_ready_to_commit c = false).
    { unfold updates_ready_to_commit. destruct (updates c) as [|[k u] d] eqn:E; [contradiction|]. cbn [forallb snd].
      rewrite (I k u); [reflexivity|]. rewrite E. cbn. now rewrite String.eqb_refl. }
    rewrite E. reflexivity.
  Qed.
  Lemma clean_same (c c' : st) : same_state c c' -> clean c -> clean c'.
  Proof.
    intros S (A & B & I). split; [|split].
    - intros E. apply A. destruct (accumulators c) as [|[k t] d] eqn:E'; [reflexivity|]. assert (X := ss_acc _ _ S k). rewrite E, E' in X.
      cbn in X. rewrite String.eqb_refl in X. discriminate.
    - intros E. apply B. destruct (updates c) as [|[k t] d] eqn:E'; [reflexivity|]. assert (X := ss_upd _ _ S k). rewrite E, E' in X.
      cbn in X. rewrite String.eqb_refl in X. discriminate.
    - intros k u Hu. rewrite <- (ss_upd _ _ S) in Hu. eauto.
  Qed.
  Lemma wrapped_pass check l (c d : st) u r r' : proper c -> same_state d c -> l_run_iteration l c u = Ok r' ->
    l_run_iteration l d u = Ok r -> same_ret r r' ->
    (check = true -> keeps_contract l d u) -> wrapped_run_iteration check l c u = Ok r'.
  Proof.
    intros P S H Hd SR K. unfold wrapped_run_iteration. rewrite H. cbn [bind]. destruct check; [|reflexivity].
    destruct (K eq_refl _ _ (reach_here l d u)) as [Cl KC]. destruct (KC r Hd) as (c' & u' & ->).
    destruct r' as [is|]; [|destruct SR]. cbn in SR. inversion SR as [|? j1 ? ? R1 R']; subst. inversion R' as [|? j2 ? ? R2 R'']; subst. inversion R''; subst.
    destruct j1; try destruct R1. destruct (clean_same _ _ S Cl) as (A & B & I).
    cbn [validate_update length Nat.eqb guard bind]. rewrite clean_committed; auto. apply P.
  Qed.
  Lemma doc_while check l (c d : st) u m n d' u' :
    layer_typed l -> layer_respects l -> proper c -> proper d -> same_state c d ->
    (check = true -> keeps_contract l d u) ->
    doc_loop l d u n d' u' -> (num_iterations m + Z.of_nat n <= max_num_iterations m)%Z ->
    exists c' m', while_runs (run_layer_adapter check l) (c, u, m) n (Ok (c', u', m')) /\ same_state c' d'.
  Proof.
    intros [T1 T2] R P Pd S K H. revert c m P Pd S K.
    induction H as [d u Hd|d u r d1 u1 n d2 u2 Hn Hr Hh Hl IH]; intros c m P Pd S K L.
    - apply all_halted_iff in Hd. exists (canonical c), m. split.
      + apply wr_done; [apply rebuild_ok|]. unfold is_act_not_complete. rewrite completely_halted_canonical.
        rewrite <- (completely_halted_same _ _ S), Hd. reflexivity.
      + eapply same_state_trans; [apply same_state_sym, canonical_same; exact P|exact S].
    - apply not_all_halted_iff in Hn. assert (P0 := canonical_proper c P). assert (S0 : same_state d (canonical c)).
      { eapply same_state_trans; [apply same_state_sym; exact S|now apply canonical_same]. }
      assert (X := R d (canonical c) u Pd P0 S0). rewrite Hr in X. destruct (l_run_iteration l (canonical c) u) as [r'|] eqn:Hr'; [|destruct X].
      destruct (hands_back_same _ _ _ _ _ _ S0 X Hh) as (c1 & Hh' & S1).
      assert (P1 := T2 _ _ _ _ _ P0 Hr' Hh'). assert (Pd1 := T2 _ _ _ _ _ Pd Hr Hh).
      assert (W := wrapped_pass check l _ _ _ _ _ P0 S0 Hr' Hr X K).
      destruct (IH c1 (increase_counter m) P1 Pd1 (same_state_sym _ _ S1)) as (c' & m' & Hw & Sc).
      { intros E c3 u3 H3. apply (K E). eapply reach_next; eauto. }
      { destruct m as [k0 mx]. unfold increase_counter. cbn [num_iterations max_num_iterations] in *. lia. }
      exists c', m'. split; [|exact Sc]. eapply wr_step; [apply rebuild_ok| | |exact Hw].
      + unfold is_act_not_complete. rewrite completely_halted_canonical, <- (completely_halted_same _ _ S), Hn. cbn [negb andb].
        apply Z.ltb_lt. destruct m as [k0 mx]. cbn [num_iterations max_num_iterations] in *. lia.
      + unfold run_layer_adapter. rewrite W. cbn [bind]. apply unpack_hands_back in Hh'. rewrite Hh'. reflexivity.
  Qed.
  Lemma leaves_ok_none (c : st) : error_mode c = None -> carry_leaves_ok c = true.
  Proof.
    intros E. unfold carry_leaves_ok, flatten_controller, save, tree_flatten_state, state_flatten. cbn [fst]. unfold field_trees. rewrite E.
    assert (D : forall d : dict tr, forallb leaf_ok (leaves (dict_tree d)) = true).
    { intros d. unfold dict_tree. cbn [leaves]. apply forallb_forall. intros x Hx. apply in_flat_map in Hx as (t & Ht & Hx).
      apply in_map_iff in Ht as (t' & <- & _). rewrite leaves_tmap in Hx. apply in_map_iff in Hx as (a & <- & _). reflexivity. }
    cbn [map concat]. rewrite !forallb_app, !D. reflexivity.
  Qed.
  Theorem doc_execute check l (c : st) init dep bound n d u' :
    layer_typed l -> layer_respects l -> l_make_controller l init dep = Ok (MCtrl c) -> l_setup_lazy l c init = Ok tt ->
    error_mode c = None -> first_call_keeps_types l c init -> (check = true -> keeps_contract l c init) ->
    doc_loop l c init n d u' -> (Z.of_nat n <= bound)%Z ->
    exists c', execute_act l init dep bound check = Ok (c', u') /\ same_state c' d.
  Proof.
    intros T R M S E (r & c1 & u1 & Hr & Hh & A1 & A2) K D L.
    assert (P : proper c) by (eapply (proj1 T); eauto). assert (P0 := canonical_proper c P). assert (S0 := canonical_same c P).
    destruct (doc_while check l c c init (mkM 0 bound) n d u' T R P P (same_state_refl c) K D) as (c' & m' & W & Sc).
    { cbn. lia. }
    exists c'. split; [|exact Sc]. unfold execute_act, wrapped_make_controller. rewrite M. cbn [bind].
    assert (V : (if check then validate_made (MCtrl c) else Ok tt) = Ok tt).
    { destruct check; [|reflexivity]. destruct (K eq_refl _ _ (reach_here l c init)) as [(X & _) _]. cbn. destruct (accumulators c); [contradiction|reflexivity]. }
    rewrite V. cbn [bind]. rewrite S. cbn [bind]. unfold while_loop. rewrite (leaves_ok_none c E). cbn [guard bind]. rewrite rebuild_ok. cbn [bind].
    assert (X := R c (canonical c) init P P0 S0). rewrite Hr in X. destruct (l_run_iteration l (canonical c) init) as [r'|] eqn:Hr'; [|destruct X].
    destruct (hands_back_same _ _ _ _ _ _ S0 X Hh) as (c2 & Hh' & S2).
    assert (B : run_layer_adapter check l (canonical c, init, mkM 0 bound) = Ok (c2, u1, increase_counter (mkM 0 bound))).
    { unfold run_layer_adapter. rewrite (wrapped_pass check l _ _ _ _ _ P0 S0 Hr' Hr X K). cbn [bind]. apply unpack_hands_back in Hh'. rewrite Hh'. reflexivity. }
    rewrite B. cbn [bind]. rewrite same_abstract_intro; auto.
    2:{ rewrite <- A1. symmetry. apply abstract_same; [exact (proj2 T _ _ _ _ _ P Hr Hh)|exact (proj2 T _ _ _ _ _ P0 Hr' Hh')|exact S2]. }
    cbn [guard bind].
    destruct (while_total (run_layer_adapter check l) (c, init, mkM 0 bound) _ (adapter_counts check l) (le_n _)) as (n' & W' & _).
    destruct (while_runs_det _ _ _ _ _ _ W W') as [_ <-]. reflexivity.
  Qed.

  (** ** Strict sequences of calls *)
  Lemma strictly_run (c c' : st) cs : strictly c cs = Ok c' -> run c cs = c' /\ returned c cs = cs.
  Proof.
    revert c. induction cs as [|x cs IH]; intros c H; cbn in H; [injection H as <-; auto|].
    destruct (apply_call c x) as [c1|] eqn:E; [|discriminate]. destruct (IH _ H) as [A B].
    rewrite run_cons. unfold after. cbn [returned]. rewrite E. split; [exact A|]. now rewrite B.
  Qed.
  Lemma strictly_app (c : st) cs1 cs2 : strictly c (cs1 ++ cs2) = match strictly c cs1 with Ok c' => strictly c' cs2 | Err e => Err e end.
  Proof. revert c. induction cs1 as [|x cs1 IH]; intros c; cbn; [reflexivity|]. destruct (apply_call c x); auto. Qed.
  Lemma strictly_same (c c' : st) cs : linked c c' -> both linked (strictly c cs) (strictly c' cs).
  Proof.
    revert c c'. induction cs as [|x cs IH]; intros c c' L; cbn; [exact L|]. assert (X := call_same c c' x L).
    destruct (apply_call c x), (apply_call c' x); cbn in X; try contradiction; [now apply IH|exact I].
  Qed.
  Lemma strictly_proper (c c' : st) cs : proper c -> strictly c cs = Ok c' -> proper c'.
  Proof.
    intros P H. assert (L : linked c c) by (repeat split; apply P). assert (X := strictly_same c c cs L). rewrite H in X. apply X.
  Qed.

  (** ** The docstring layer *)
  Lemma simple_typed (c0 : st) next upd halt lazy : proper c0 -> layer_typed (simple_layer c0 next upd halt lazy).
  Proof.
    intros P. split; cbn.
    - intros _ _ c [= <-]. exact P.
    - intros c u r c' u' Pc H Hh. destruct (strictly c (simple_calls upd halt u)) as [c1|] eqn:E; [|discriminate]. injection H as <-.
      cbn in Hh. destruct Hh as [-> _]. eapply strictly_proper; eauto.
  Qed.
  Lemma simple_respects (c0 : st) next upd halt lazy : layer_respects (simple_layer c0 next upd halt lazy).
  Proof.
    intros c c' u P P' S. cbn. assert (X := strictly_same c c' (simple_calls upd halt u) (conj P (conj P' S))).
    destruct (strictly c _), (strictly c' _); cbn in X; try contradiction; [|exact I].
    repeat constructor; apply X.
  Qed.

  Definition all_none (c : st) : Prop := forall k u, dget k (updates c) = Some u -> u = tnone.
  Lemma cache_all_fit (c : st) (U : dict tr) :
    NoDup (dkeys U) -> (forall k, In k (dkeys U) -> dget k (updates c) = Some tnone) ->
    exists c', strictly c (map (fun kv => CCache (fst kv) (snd kv)) U) = Ok c' /\
      accumulators c' = accumulators c /\ probabilities c' = probabilities c /\
      dkeys (updates c') = dkeys (updates c) /\
      forall k, dget k (updates c') = match dget k U with Some v => Some v | None => dget k (updates c) end.
  Proof.
    revert c. induction U as [|[k v] U IH]; intros c ND H; cbn [map strictly].
    - exists c. repeat split.
    - cbn in ND. apply NoDup_cons_iff in ND as [Nk ND]. cbn [apply_call fst snd]. rewrite cache_update_char. rewrite (H k) by now left.
      cbn [is_none tnone]. match goal with |- context [strictly ?x _] => set (c1 := x) end.
      destruct (IH c1 ND) as (c' & A & B & C & D & E).
      { intros k' Hk'. cbn. rewrite dget_dset_neq; [apply H; now right|]. intros ->. contradiction. }
      exists c'. split; [exact A|]. split; [rewrite B; reflexivity|]. split; [rewrite C; reflexivity|]. split.
      + rewrite D. cbn. apply dkeys_dset_in. apply dget_keys. exists tnone. apply H. now left.
      + intros k'. rewrite E. cbn [dget]. unfold c1. cbn [updates]. destruct (String.eqb_spec k k') as [->|Ne].
        * rewrite String.eqb_refl. assert (X : dget k' U = None) by now apply dget_none. rewrite X. apply dget_dset_eq.
        * rewrite (proj2 (String.eqb_neq k' k)) by congruence. destruct (dget k' U); [reflexivity|]. apply dget_dset_neq. congruence.
  Qed.

  Lemma simple_step_ok (c : st) upd halt u :
    wf c -> wf_pending c -> all_none c -> step_fits c (upd u) (halt u) ->
    exists c', strictly c (simple_calls upd halt u) = Ok c' /\ wf c' /\ wf_pending c' /\ all_none c' /\ same_frame c c'.
  Proof.
    intros W P A (ND & K & F & Ah & Sh & Dh).
    assert (CW : Forall call_wf (simple_calls upd halt u)).
    { unfold simple_calls. apply Forall_app. split; [|repeat constructor; exact Ah]. rewrite Forall_forall. intros x Hx.
      apply in_map_iff in Hx as ([k v] & <- & Hin). cbn. assert (Hk : In k (dkeys (upd u))) by (apply (in_map fst) in Hin; exact Hin).
      apply K, dget_keys in Hk as [t Ht]. apply (F k t v Ht). now apply dget_nodup. }
    destruct (cache_all_fit c (upd u) ND) as (c1 & H1 & Ha & Hp & Hk & Hg).
    { intros k Hk. assert (X : In k (dkeys (updates c))) by (apply (wf_keys_u _ W), K, Hk). apply dget_keys in X as [v Hv]. now rewrite (A k v Hv) in Hv. }
    assert (CW1 := proj1 (proj1 (Forall_app _ _ _) CW)).
    destruct (strictly_run _ _ _ H1) as [R1 _]. destruct (run_wf c _ W P CW1) as [W1 P1]. rewrite R1 in W1, P1.
    assert (I : exists c', iterate_act c1 (halt u) = Ok c').
    { apply iterate_ok_iff; auto. unfold batch_shape. rewrite Hp. split; [exact Sh|]. split; [exact Dh|].
      intros k t Ht. rewrite Ha in Ht. rewrite Hg, Hp. assert (X : In k (dkeys (upd u))) by (apply K, dget_keys; eauto).
      apply dget_keys in X as [v Hv]. rewrite Hv. exists v. split; [reflexivity|]. destruct (F k t v Ht Hv) as (F1 & _ & F3). auto. }
    destruct I as [c' I]. assert (H : strictly c (simple_calls upd halt u) = Ok c').
    { unfold simple_calls. rewrite strictly_app, H1. cbn. now rewrite I. }
    exists c'. split; [exact H|]. destruct (strictly_run _ _ _ H) as [R _]. destruct (run_wf c _ W P CW) as [W' P']. rewrite R in W', P'.
    split; [exact W'|]. split; [exact P'|]. split; [|rewrite <- R; now apply run_frame].
    destruct (iterate_committed c1 (halt u) c' W1 P1 Ah I) as (C & _ & _). intros k v Hv.
    assert (X := cm_upd _ _ _ C k). rewrite X in Hv; [congruence|]. rewrite <- (cm_keys_u _ _ _ C). apply dget_keys. eauto.
  Qed.

  (** ** Same frame, no pending update: same abstract value *)
  Lemma sort_Forall2 {V} (R : string * V -> string * V -> Prop) (d d' : dict V) :
    (forall x y, R x y -> fst x = fst y) -> Forall2 R d d' -> Forall2 R (sort_items d) (sort_items d').
  Proof.
    intros HR H. induction H as [|x y d d' Hxy H IH]; [constructor|].
    change (sort_items (x :: d)) with (insert_item x (sort_items d)). change (sort_items (y :: d')) with (insert_item y (sort_items d')).
    induction IH as [|x1 y1 e e' H1 He IHe]; cbn [insert_item]; [repeat constructor; exact Hxy|].
    rewrite (HR _ _ Hxy), (HR _ _ H1). destruct (String.ltb (fst y) (fst y1)); constructor; auto.
  Qed.
  Lemma keys_Forall2 {V} (R : V -> V -> Prop) (d d' : dict V) : NoDup (dkeys d) -> dkeys d' = dkeys d ->
    (forall k t t', dget k d = Some t -> dget k d' = Some t' -> R t t') ->
    Forall2 (fun x y => fst x = fst y /\ R (snd x) (snd y)) d d'.
  Proof.
    revert d'. induction d as [|[k t] d IH]; intros [|[k' t'] d'] ND K H; cbn in *; try discriminate; [constructor|].
    injection K as -> K. apply NoDup_cons_iff in ND as [Nk ND]. constructor.
    - split; [reflexivity|]. cbn. apply (H k); now rewrite String.eqb_refl.
    - apply IH; auto. intros k1 t1 t1' H1 H1'. apply (H k1); rewrite (proj2 (String.eqb_neq k1 k)); auto; intros ->; apply Nk, dget_keys; eauto.
  Qed.
  Definition ashape (l : pyleaf N) := abstract_leaf l.
  Lemma alike_abstract (t t' : tr) : alike t' t ->
    map abstract_leaf (leaves (tmap LArr t')) = map abstract_leaf (leaves (tmap LArr t)) /\ structure (tmap LArr t') = structure (tmap LArr t) /\
    length (leaves (tmap LArr t')) = length (leaves (tmap LArr t)).
  Proof.
    intros [S L]. rewrite !leaves_tmap, !structure_tmap, !map_map. split; [|split; [exact S|]].
    - apply (f_equal (map (fun x : list nat * dtype => AArr (fst x) (snd x)))) in L. rewrite !map_map in L. exact L.
    - apply (f_equal (@length _)) in L. rewrite !map_length in L. now rewrite !map_length.
  Qed.
  Lemma dict_abstract (d d' : dict tr) : NoDup (dkeys d) -> dkeys d' = dkeys d ->
    (forall k t t', dget k d = Some t -> dget k d' = Some t' -> alike t' t) ->
    map abstract_leaf (leaves (dict_tree d')) = map abstract_leaf (leaves (dict_tree d)) /\ structure (dict_tree d') = structure (dict_tree d) /\
    length (leaves (dict_tree d')) = length (leaves (dict_tree d)).
  Proof.
    intros ND K H. assert (F := keys_Forall2 (fun t t' => alike t' t) d d' ND K H).
    apply sort_Forall2 in F; [|intros x y [E _]; exact E]. unfold dict_tree. cbn [leaves structure]. unfold dkeys, dvals.
    generalize dependent (sort_items d'). generalize dependent (sort_items d). intros e e' F.
    assert (X : map fst e' = map fst e /\ map abstract_leaf (flat_map leaves (map (tmap LArr) (map snd e'))) = map abstract_leaf (flat_map leaves (map (tmap LArr) (map snd e)))
      /\ map structure (map (tmap LArr) (map snd e')) = map structure (map (tmap LArr) (map snd e))
      /\ length (flat_map leaves (map (tmap LArr) (map snd e'))) = length (flat_map leaves (map (tmap LArr) (map snd e)))).
    { induction F as [|x y e e' [E A] F IH]; [repeat split|]. cbn [map flat_map]. destruct IH as (I1 & I2 & I3 & I4).
      destruct (alike_abstract _ _ A) as (A1 & A2 & A3). rewrite !map_app, !app_length. repeat split; congruence. }
    destruct X as (X1 & X2 & X3 & X4). split; [exact X2|]. split; [|exact X4]. unfold structure in *. cbn [tmap]. rewrite X1. f_equal. exact X3.
  Qed.
  Lemma frame_abstract (c c' : st) : wf c -> same_frame c c' -> all_none c -> all_none c' -> abstract_ctrl c' = abstract_ctrl c.
  Proof.
    intros W F A A'. destruct (dict_abstract (accumulators c) (accumulators c')) as (D1 & D2 & D3); [apply W|apply F|apply (sf_acc _ _ F)|].
    assert (U : updates c' = updates c).
    { assert (X := keys_Forall2 eq (updates c) (updates c') (wf_nodup_u _ W) (sf_upds _ _ F)).
      assert (Y : Forall2 (fun x y : string * tr => fst x = fst y /\ snd x = snd y) (updates c) (updates c')).
      { apply X. intros k t t' H H'. rewrite (A _ _ H), (A' _ _ H'). reflexivity. }
      clear X. induction Y as [|[] [] ? ? [E1 E2] _ IH]; [reflexivity|]. cbn in E1, E2. congruence. }
    destruct F as [f1 f2 f3 f4 f5 f6 f7 _ _ _]. unfold abstract_ctrl, flatten_controller, save, tree_flatten_state, state_flatten, field_trees. cbn [fst snd].
    rewrite U, f1, f2, f3, f4. cbn [map concat]. rewrite !map_app. rewrite D1. cbn [leaves structure map app].
    unfold sig in f5, f6, f7. cbn [abstract_leaf]. injection f5 as f5 f5'. injection f6 as f6 f6'. injection f7 as f7 f7'.
    rewrite f5, f5', f6, f6', f7, f7', D2, D3. reflexivity.
  Qed.
End LayerFacts2.
