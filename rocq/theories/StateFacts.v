(** * Facts about core/states.py: the state as a pytree; states equal up to dictionary order. *)
From Coq Require Import Permutation Sorting.Sorted.
From Verif Require Import Base PyTree Tensor Num Utils States Controller Wf History ElementSpec StateSpec.
From Verif Require Import BaseFacts PyTreeFacts TensorFacts ControllerFacts IterateFacts ResetFacts HistoryFacts.
Open Scope string_scope. Open Scope list_scope. Open Scope nat_scope.

(** ** Sorting a dictionary *)
Lemma insert_item_perm {V} (kv : string * V) d : Permutation (insert_item kv d) (kv :: d).
Proof.
  induction d as [|kv' d IH]; cbn; [reflexivity|]. destruct (String.ltb (fst kv) (fst kv')); [reflexivity|].
  etransitivity; [apply perm_skip, IH|]. apply perm_swap.
Qed.
Lemma sort_items_perm {V} (d : dict V) : Permutation (sort_items d) d.
Proof.
  unfold sort_items. induction d as [|kv d IH]; cbn [fold_right]; [reflexivity|]. etransitivity; [apply insert_item_perm|]. now apply perm_skip.
Qed.
Lemma dget_perm {V} (d d' : dict V) k : Permutation d d' -> NoDup (dkeys d) -> dget k d = dget k d'.
Proof.
  intros P ND. assert (ND' : NoDup (dkeys d')) by (unfold dkeys in *; eapply Permutation_NoDup; [apply Permutation_map; exact P|exact ND]).
  destruct (dget k d) as [v|] eqn:E.
  - symmetry. apply dget_nodup; [exact ND'|]. eapply Permutation_in; [exact P|]. now apply dget_In.
  - symmetry. apply dget_none. intros H. apply dget_none in E. apply E. unfold dkeys in *.
    eapply Permutation_in; [apply Permutation_sym, Permutation_map; exact P|exact H].
Qed.
Lemma dget_sort {V} (d : dict V) k : NoDup (dkeys d) -> dget k (sort_items d) = dget k d.
Proof. intros H. symmetry. apply dget_perm; [apply Permutation_sym, sort_items_perm|exact H]. Qed.
Lemma dkeys_sort_perm {V} (d : dict V) : Permutation (dkeys (sort_items d)) (dkeys d).
Proof. apply Permutation_map, sort_items_perm. Qed.
Lemma nodup_sort {V} (d : dict V) : NoDup (dkeys d) -> NoDup (dkeys (sort_items d)).
Proof. apply Permutation_NoDup, Permutation_sym, dkeys_sort_perm. Qed.

(** the keys come out in increasing order *)
Definition key_le (a b : string) : Prop := String.ltb b a = false.
Lemma ltb_compare a b : String.ltb a b = true <-> String.compare a b = Lt.
Proof. unfold String.ltb. destruct (String.compare a b); split; congruence. Qed.
Lemma str_compare_trans a b c : String.compare a b <> Gt -> String.compare b c <> Gt -> String.compare a c <> Gt.
Proof.
  revert b c. induction a as [|x a IH]; intros [|y b] [|z c]; cbn; try congruence.
  unfold Ascii.compare. destruct (N.compare_spec (Ascii.N_of_ascii x) (Ascii.N_of_ascii y)) as [E1|E1|E1];
  destruct (N.compare_spec (Ascii.N_of_ascii y) (Ascii.N_of_ascii z)) as [E2|E2|E2];
  destruct (N.compare_spec (Ascii.N_of_ascii x) (Ascii.N_of_ascii z)) as [E3|E3|E3]; try congruence; try lia; eauto.
Qed.
Lemma str_compare_anti a b : String.compare a b = CompOpp (String.compare b a).
Proof. apply String.compare_antisym. Qed.
Lemma key_le_trans a b c : key_le a b -> key_le b c -> key_le a c.
Proof.
  unfold key_le. intros H1 H2. apply not_true_iff_false. rewrite ltb_compare.
  assert (A : String.compare b a <> Lt) by (rewrite <- ltb_compare; congruence).
  assert (B : String.compare c b <> Lt) by (rewrite <- ltb_compare; congruence).
  rewrite (str_compare_anti b a) in A. rewrite (str_compare_anti c b) in B. rewrite (str_compare_anti c a).
  assert (T : String.compare a c <> Gt).
  { apply (str_compare_trans a b c); [destruct (String.compare a b)|destruct (String.compare b c)]; cbn in *; congruence. }
  destruct (String.compare a c); cbn in *; congruence.
Qed.
Lemma key_lt_le a b : String.ltb a b = true -> key_le a b.
Proof.
  unfold key_le. rewrite ltb_compare. intros H. apply not_true_iff_false. rewrite ltb_compare, str_compare_anti, H. cbn. congruence.
Qed.
Lemma insert_sorted {V} (kv : string * V) d : StronglySorted key_le (dkeys d) -> StronglySorted key_le (dkeys (insert_item kv d)).
Proof.
  unfold dkeys. induction d as [|kv' d IH]; intros S; cbn [insert_item map]; [repeat constructor|].
  cbn [map] in S. apply StronglySorted_inv in S as [S F].
  destruct (String.ltb (fst kv) (fst kv')) eqn:E; cbn [map].
  - constructor; [constructor; assumption|]. constructor; [now apply key_lt_le|].
    eapply Forall_impl; [|exact F]. intros k Hk. eapply key_le_trans; [apply key_lt_le; exact E|exact Hk].
  - constructor; [now apply IH|]. rewrite Forall_forall in F |- *. intros k Hk.
    eapply Permutation_in in Hk; [|apply Permutation_map, insert_item_perm]. destruct Hk as [<-|Hk]; [exact E|auto].
Qed.
Lemma sort_sorted {V} (d : dict V) : StronglySorted key_le (dkeys (sort_items d)).
Proof. induction d as [|kv d IH]; cbn; [constructor|]. now apply insert_sorted. Qed.
Lemma insert_head {V} (kv : string * V) d : Forall (fun k => String.ltb (fst kv) k = true) (dkeys d) -> insert_item kv d = kv :: d.
Proof. destruct d as [|kv' d]; cbn; [reflexivity|]. intros H. apply Forall_inv in H. now rewrite H. Qed.
Lemma sort_fixed {V} (d : dict V) : StronglySorted (fun a b => String.ltb a b = true) (dkeys d) -> sort_items d = d.
Proof.
  induction d as [|kv d IH]; intros S; [reflexivity|]. cbn in S. apply StronglySorted_inv in S as [S F].
  change (sort_items (kv :: d)) with (insert_item kv (sort_items d)). rewrite (IH S). now apply insert_head.
Qed.
Lemma key_le_lt a b : key_le a b -> a <> b -> String.ltb a b = true.
Proof.
  unfold key_le. intros H Ne. apply ltb_compare. apply not_true_iff_false in H. rewrite ltb_compare, str_compare_anti in H.
  destruct (String.compare a b) eqn:E; auto.
  - exfalso. apply Ne. now apply String.compare_eq_iff.
  - cbn in H. congruence.
Qed.
Lemma sort_idempotent {V} (d : dict V) : NoDup (dkeys d) -> sort_items (sort_items d) = sort_items d.
Proof.
  intros ND. apply sort_fixed. assert (S := sort_sorted d). assert (N' := nodup_sort d ND).
  induction S as [|k ks S IH F]; [constructor|]. apply NoDup_cons_iff in N' as [Hk N']. constructor; [auto|].
  rewrite Forall_forall in F |- *. intros x Hx. apply key_le_lt; auto. intros ->. contradiction.
Qed.

Section StateFacts.
  Context {N : numsys}.
  Notation st := (state N).
  Notation tr := (tree (array N)).

  (** ** The round trip *)
  Lemma as_tree_map (t : tr) : as_tree (tmap LArr t) = Some t.
  Proof.
    induction t as [a|n cs IH] using tree_ind'; [reflexivity|]. cbn [tmap as_tree].
    match goal with |- match ?go (map (tmap LArr) cs) with _ => _ end = _ => assert (G : go (map (tmap LArr) cs) = Some cs) end.
    { induction IH as [|c cs Hc _ IHc]; cbn [map]; [reflexivity|]. rewrite Hc, IHc. reflexivity. }
    now rewrite G.
  Qed.
  Lemma as_items_map (d : dict tr) : as_items (dkeys d) (map (tmap LArr) (dvals d)) = Some d.
  Proof. induction d as [|[k t] d IH]; cbn; [reflexivity|]. rewrite as_tree_map. unfold dkeys, dvals in IH. now rewrite IH. Qed.
  Lemma as_dict_tree (d : dict tr) : as_dict (dict_tree d) = Some (sort_items d).
  Proof. apply as_items_map. Qed.
  Lemma split_by_concat (vs : list (list (pyleaf N))) : split_by (map (@length _) vs) (concat vs) = Ok vs.
  Proof.
    induction vs as [|v vs IH]; cbn [map concat split_by]; [reflexivity|].
    rewrite (proj2 (Nat.leb_le _ _)) by (rewrite app_length; lia).
    rewrite skipn_app, skipn_all, Nat.sub_diag. cbn [skipn app]. rewrite IH. cbn [bind].
    rewrite firstn_app, firstn_all, Nat.sub_diag. cbn [firstn]. now rewrite app_nil_r.
  Qed.
  Lemma unflatten_all (ts : list (tree (pyleaf N))) :
    mapM2 (fun value td => unflatten td value) (map leaves ts) (map structure ts) = Ok ts.
  Proof. induction ts as [|t ts IH]; cbn [map mapM2]; [reflexivity|]. rewrite unflatten_leaves. cbn [bind]. now rewrite IH. Qed.
  Theorem flatten_round_trip (s : st) :
    tree_unflatten_state (snd (tree_flatten_state s)) (fst (tree_flatten_state s)) = Ok (canonical s).
  Proof.
    unfold tree_flatten_state, state_flatten, tree_unflatten_state, state_unflatten. cbn [fst snd].
    rewrite split_by_concat. cbn [bind]. rewrite unflatten_all. cbn [bind]. unfold field_trees, state_of_trees.
    rewrite !as_dict_tree. unfold canonical. cbn [as_scl as_arr]. destruct (error_mode s) as [m|]; reflexivity.
  Qed.

  (** ** States equal up to dictionary order *)
  Lemma same_state_refl (s : st) : same_state s s.
  Proof. now split. Qed.
  Lemma same_state_sym (s s' : st) : same_state s s' -> same_state s' s.
  Proof. intros []. split; auto. Qed.
  Lemma same_state_trans (s1 s2 s3 : st) : same_state s1 s2 -> same_state s2 s3 -> same_state s1 s3.
  Proof. intros [] []. split; congruence. Qed.
  Lemma canonical_same (s : st) : proper s -> same_state s (canonical s).
  Proof.
    intros (A & B & C). split; auto; intros k; cbn [canonical defaults accumulators updates]; symmetry; now apply dget_sort.
  Qed.
  Lemma canonical_proper (s : st) : proper s -> proper (canonical s).
  Proof. intros (A & B & C). unfold proper. cbn [canonical defaults accumulators updates]. auto using nodup_sort. Qed.
  Lemma canonical_idem (s : st) : proper s -> canonical (canonical s) = canonical s.
  Proof. intros (A & B & C). unfold canonical. cbn [epsilon iterations residuals probabilities defaults accumulators updates depression_constant error_mode]. now rewrite !sort_idempotent. Qed.
  Lemma wf_proper (s : st) : wf s -> proper s.
  Proof. intros W. split; [apply W|split; apply W]. Qed.
  Lemma same_keys {V} (d d' : dict V) : (forall k, dget k d = dget k d') -> forall k, In k (dkeys d) <-> In k (dkeys d').
  Proof. intros H k. rewrite !dget_keys, H. reflexivity. Qed.
  Lemma wf_same (s s' : st) : proper s' -> same_state s s' -> wf s -> wf s'.
  Proof.
    intros (A & B & C) [e i r p d a u c m] W. destruct W. unfold batch_shape in *.
    split; unfold batch_shape; rewrite <- ?e, <- ?i, <- ?r, <- ?p; auto.
    - intros k. rewrite <- (same_keys _ _ d), <- (same_keys _ _ a). auto.
    - intros k. rewrite <- (same_keys _ _ u), <- (same_keys _ _ a). auto.
    - intros k t Ht. rewrite <- a in Ht. eauto.
    - intros k t dt Ht Hd. rewrite <- a in Ht. rewrite <- d in Hd. eauto.
  Qed.
  Lemma wf_pending_same (s s' : st) : same_state s s' -> wf_pending s -> wf_pending s'.
  Proof. intros H P k u Hu. rewrite <- (ss_upd _ _ H) in Hu. eauto. Qed.

  Lemma halted_same (s s' : st) : same_state s s' -> halted_batches s' = halted_batches s.
  Proof. intros H. unfold halted_batches, halt_threshold. now rewrite (ss_p _ _ H), (ss_eps _ _ H). Qed.
  Lemma process_same (s s' : st) h : same_state s s' -> process_probabilities s' h = process_probabilities s h.
  Proof.
    intros H. unfold process_probabilities. rewrite (halted_same _ _ H). unfold halt_threshold.
    now rewrite <- (ss_dep _ _ H), <- (ss_p _ _ H), <- (ss_eps _ _ H), <- (ss_r _ _ H).
  Qed.
  Lemma mapM2_ext {A B C} (f g : A -> B -> res C) l1 l2 : (forall x y, f x y = g x y) -> mapM2 f l1 l2 = mapM2 g l1 l2.
  Proof. intros H. revert l2. induction l1 as [|x l1 IH]; intros [|y l2]; cbn; auto. rewrite H, IH. reflexivity. Qed.
  Lemma merge_ext (f g : array N -> array N -> res (array N)) t1 t2 : (forall x y, f x y = g x y) -> merge_pytrees f t1 t2 = merge_pytrees g t1 t2.
  Proof. intros H. unfold merge_pytrees. now rewrite (mapM2_ext f g _ _ H). Qed.
  Lemma update_accumulator_same (s s' : st) h x y : same_state s s' -> update_accumulator s' h x y = update_accumulator s h x y.
  Proof. intros H. unfold update_accumulator. now rewrite (halted_same _ _ H). Qed.

  Lemma iterate_loop_same (s s' : st) h : proper s -> proper s' -> same_state s s' ->
    match iterate_loop s h (dkeys (accumulators s)) (accumulators s) (updates s),
          iterate_loop s' h (dkeys (accumulators s')) (accumulators s') (updates s') with
    | Ok (a, u), Ok (a', u') => (forall k, dget k a = dget k a') /\ (forall k, dget k u = dget k u') /\
         dkeys a = dkeys (accumulators s) /\ dkeys a' = dkeys (accumulators s') /\
         dkeys u = dkeys (updates s) /\ dkeys u' = dkeys (updates s')
    | Err e, Err e' => e = e'
    | _, _ => False
    end.
  Proof.
    intros (_ & ND & _) (_ & ND' & _) SS.
    assert (HALF : forall s1 s2 : st, NoDup (dkeys (accumulators s1)) -> NoDup (dkeys (accumulators s2)) -> same_state s1 s2 ->
      forall a u, iterate_loop s1 h (dkeys (accumulators s1)) (accumulators s1) (updates s1) = Ok (a, u) ->
      exists a' u', iterate_loop s2 h (dkeys (accumulators s2)) (accumulators s2) (updates s2) = Ok (a', u')).
    { intros s1 s2 N1 N2 S12 a u H. apply iterate_loop_inv in H as (_ & _ & Hk); [|exact N1].
      apply iterate_loop_total; [exact N2|]. intros k Hin. rewrite <- (same_keys _ _ (ss_acc _ _ S12)) in Hin.
      specialize (Hk k). destruct (in_dec string_dec k (dkeys (accumulators s1))) as [_|X]; [|contradiction].
      destruct Hk as (acc & upd & new & H1 & H2 & H3 & H4 & _). exists acc, upd, new.
      rewrite <- (ss_acc _ _ S12), <- (ss_upd _ _ S12). repeat split; auto. rewrite <- H4. apply merge_ext.
      intros x y. now apply update_accumulator_same. }
    destruct (iterate_loop s h (dkeys (accumulators s)) (accumulators s) (updates s)) as [[a u]|e] eqn:E1;
    destruct (iterate_loop s' h (dkeys (accumulators s')) (accumulators s') (updates s')) as [[a' u']|e'] eqn:E2.
    - assert (I1 := iterate_loop_inv _ _ _ _ _ _ _ ND E1). assert (I2 := iterate_loop_inv _ _ _ _ _ _ _ ND' E2).
      destruct I1 as (K1 & K2 & Hk). destruct I2 as (K1' & K2' & Hk').
      assert (X : forall k, dget k a = dget k a' /\ dget k u = dget k u').
      { intros k. specialize (Hk k). specialize (Hk' k). assert (Ks := same_keys _ _ (ss_acc _ _ SS) k).
        destruct (in_dec string_dec k (dkeys (accumulators s))) as [I1|I1], (in_dec string_dec k (dkeys (accumulators s'))) as [I2|I2]; try tauto.
        - destruct Hk as (acc & upd & new & A1 & A2 & A3 & A4 & A5 & A6).
          destruct Hk' as (acc' & upd' & new' & B1 & B2 & B3 & B4 & B5 & B6).
          rewrite <- (ss_acc _ _ SS) in B1. rewrite <- (ss_upd _ _ SS) in B2.
          assert (acc' = acc) by congruence. assert (upd' = upd) by congruence. subst.
          assert (M : merge_pytrees (update_accumulator s' h) acc upd = merge_pytrees (update_accumulator s h) acc upd).
          { apply merge_ext. intros x y. now apply update_accumulator_same. }
          split; [|congruence]. rewrite A5, B5. congruence.
        - destruct Hk as [A1 A2]. destruct Hk' as [B1 B2]. rewrite A1, A2, B1, B2. split; [apply SS|apply SS]. }
      repeat split; auto; intros k; apply X.
    - destruct (HALF s s' ND ND' SS _ _ E1) as (x & y & Z). congruence.
    - destruct (HALF s' s ND' ND (same_state_sym _ _ SS) _ _ E2) as (x & y & Z). congruence.
    - apply iterate_loop_err in E1. apply iterate_loop_err in E2. congruence.
  Qed.

  Lemma has_cached_same (s s' : st) : proper s -> proper s' -> same_state s s' -> has_cached_updates s' = has_cached_updates s.
  Proof.
    intros (_ & _ & N1) (_ & _ & N2) SS. unfold has_cached_updates.
    assert (H : forall d d' : dict tr, NoDup (dkeys d) -> NoDup (dkeys d') -> (forall k, dget k d = dget k d') ->
      existsb (fun kv => negb (is_none (snd kv))) d = true -> existsb (fun kv => negb (is_none (snd kv))) d' = true).
    { intros d d' D D' G H. apply existsb_exists in H as ([k t] & Hin & Hn). apply existsb_exists. exists (k, t). split; [|exact Hn].
      apply dget_In. rewrite <- G. now apply dget_nodup. }
    assert (A := H _ _ N1 N2 (ss_upd _ _ SS)). assert (B := H _ _ N2 N1 (fun k => eq_sym (ss_upd _ _ SS k))).
    destruct (existsb _ (updates s)), (existsb _ (updates s')); auto; symmetry; auto.
  Qed.
  Lemma ready_to_commit_same (s s' : st) : proper s -> proper s' -> same_state s s' -> updates_ready_to_commit s' = updates_ready_to_commit s.
  Proof.
    intros (_ & _ & N1) (_ & _ & N2) SS. unfold updates_ready_to_commit.
    assert (H : forall d d' : dict tr, NoDup (dkeys d) -> NoDup (dkeys d') -> (forall k, dget k d = dget k d') ->
      forallb (fun kv => negb (is_none (snd kv))) d = true -> forallb (fun kv => negb (is_none (snd kv))) d' = true).
    { intros d d' D D' G H. rewrite forallb_forall in H |- *. intros [k t] Hin. apply (H (k, t)). apply dget_In. rewrite G. now apply dget_nodup. }
    assert (A := H _ _ N1 N2 (ss_upd _ _ SS)). assert (B := H _ _ N2 N1 (fun k => eq_sym (ss_upd _ _ SS k))).
    destruct (forallb _ (updates s)), (forallb _ (updates s')); auto; symmetry; auto.
  Qed.

  Definition both {A} (R : A -> A -> Prop) (r r' : res A) : Prop :=
    match r, r' with Ok a, Ok a' => R a a' | Err _, Err _ => True | _, _ => False end.
  Definition linked (s s' : st) : Prop := proper s /\ proper s' /\ same_state s s'.

  Theorem call_same (s s' : st) c : linked s s' -> both linked (apply_call s c) (apply_call s' c).
  Proof.
    intros (P & P' & SS). destruct c as [name item|h|]; cbn [apply_call].
    - unfold cache_update. rewrite <- (ss_upd _ _ SS). destruct (dget name (updates s)) as [u|]; [|exact I].
      destruct (is_none u); cbn [negb]; [|exact I]. cbn [replace bind r_depression_constant r_error_mode]. unfold both.
      destruct P as (A & B & C), P' as (A' & B' & C'). destruct SS. unfold linked, proper.
      cbn [default r_epsilon r_iterations r_residuals r_probabilities r_defaults r_accumulators r_updates epsilon iterations residuals probabilities defaults accumulators updates depression_constant error_mode].
      split; [auto using NoDup_dset|]. split; [auto using NoDup_dset|].
      split; cbn [epsilon iterations residuals probabilities defaults accumulators updates depression_constant error_mode]; auto.
      intros k. rewrite !dget_dset. now destruct (String.eqb k name).
    - unfold iterate_act. rewrite <- (ss_p _ _ SS), (process_same _ _ _ SS). destruct (guard _ _) as [g0|g0]; [|exact I]. cbn [bind].
      destruct (process_probabilities s _) as [[[h2 r'] p']|e]; [|exact I]. cbn [bind].
      assert (L := iterate_loop_same s s' h2 P P' SS).
      destruct (iterate_loop s h2 _ _ _) as [[a u]|e1], (iterate_loop s' h2 _ _ _) as [[a' u']|e2]; try contradiction; [|exact I].
      cbn [bind]. rewrite (halted_same _ _ SS), <- (ss_i _ _ SS). destruct (a_select _ _ _) as [i'|e]; [|exact I].
      cbn [bind]. rewrite !replace_iterate. unfold both, linked, proper.
      cbn [epsilon iterations residuals probabilities defaults accumulators updates depression_constant error_mode].
      destruct L as (La & Lu & K1 & K2 & K3 & K4). destruct P as (A & B & C), P' as (A' & B' & C'). rewrite K1, K2, K3, K4.
      split; [auto|]. split; [auto|]. destruct SS. split; auto.
    - unfold reset_batches. rewrite (has_cached_same s s' P P' SS), (halted_same _ _ SS), <- (ss_i _ _ SS), <- (ss_p _ _ SS), <- (ss_r _ _ SS).
      destruct (guard _ _) as [g0|g0]; [|exact I]. cbn [bind]. set (m := tnot (halted_batches s)).
      destruct (a_mul_bool (iterations s) m); [|exact I]. destruct (a_mul_bool (probabilities s) m); [|exact I].
      destruct (a_mul_bool (residuals s) m); [|exact I]. cbn [bind].
      destruct P as (A & B & C), P' as (A' & B' & C').
      assert (HALF : forall s1 s2 : st, NoDup (dkeys (accumulators s1)) -> same_state s1 s2 ->
        forall out, reset_loop s1 m (dkeys (accumulators s1)) [] = Ok out ->
        exists out', reset_loop s2 m (dkeys (accumulators s2)) [] = Ok out').
      { intros s1 s2 N1 S12 out H. apply reset_loop_inv in H as [_ Hk]; [|exact N1|intros ? ? []].
        apply reset_loop_total. intros k Hin. rewrite <- (same_keys _ _ (ss_acc _ _ S12)) in Hin. specialize (Hk k).
        destruct (in_dec string_dec k (dkeys (accumulators s1))) as [_|X]; [|contradiction].
        destruct Hk as (acc & def & new & H1 & H2 & H3 & _). exists acc, def, new. now rewrite <- (ss_acc _ _ S12), <- (ss_def _ _ S12). }
      destruct (reset_loop s m _ []) as [o|e] eqn:E1, (reset_loop s' m _ []) as [o'|e'] eqn:E2.
      + apply reset_loop_inv in E1 as [K1 H1]; [|exact B|intros ? ? []]. apply reset_loop_inv in E2 as [K2 H2]; [|exact B'|intros ? ? []].
        cbn [bind replace r_depression_constant r_error_mode]. unfold both, linked, proper.
        cbn [default r_epsilon r_iterations r_residuals r_probabilities r_defaults r_accumulators r_updates epsilon iterations residuals probabilities defaults accumulators updates depression_constant error_mode].
        cbn [dkeys map app] in K1, K2. change (dkeys (V := tr) []) with (@nil string) in K1, K2. cbn [app] in K1, K2. rewrite K1, K2.
        split; [auto|]. split; [auto|]. split; cbn [epsilon iterations residuals probabilities defaults accumulators updates depression_constant error_mode]; try apply SS; auto.
        intros k. specialize (H1 k). specialize (H2 k). assert (Ks := same_keys _ _ (ss_acc _ _ SS) k).
        destruct (in_dec string_dec k (dkeys (accumulators s))) as [I1|I1], (in_dec string_dec k (dkeys (accumulators s'))) as [I2|I2]; try tauto; [|congruence].
        destruct H1 as (acc & def & new & X1 & X2 & X3 & X4). destruct H2 as (acc' & def' & new' & Y1 & Y2 & Y3 & Y4).
        rewrite <- (ss_acc _ _ SS) in Y1. rewrite <- (ss_def _ _ SS) in Y2. assert (acc' = acc) by congruence. assert (def' = def) by congruence. subst. congruence.
      + destruct (HALF s s' B SS _ E1) as [x X]. congruence.
      + destruct (HALF s' s B' (same_state_sym _ _ SS) _ E2) as [x X]. congruence.
      + exact I.
  Qed.
  Theorem run_same (s s' : st) cs : linked s s' -> linked (run s cs) (run s' cs).
  Proof.
    revert s s'. induction cs as [|c cs IH]; intros s s' L; [exact L|]. rewrite !run_cons. apply IH. unfold after.
    assert (X := call_same s s' c L). destruct (apply_call s c), (apply_call s' c); cbn in X; tauto.
  Qed.
End StateFacts.
