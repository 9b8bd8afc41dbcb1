(** * Docstring layers: contract, liveness; pending updates in the loop carry. *)
From Coq Require Import QArith Qcanon Permutation Sorted.
From Verif Require Import Base PyTree Tensor Num Utils States Controller Layers Wf Spec History ElementSpec StateSpec LayerSpec.
From Verif Require Import BaseFacts PyTreeFacts TensorFacts ControllerFacts IterateFacts ResetFacts HistoryFacts StateFacts LayerFacts LayerFacts2.
From Verif Require Import QcFacts SpecFacts GravesFacts ExactFacts ExactFacts2.
Close Scope Qc_scope. Close Scope Q_scope. Open Scope string_scope. Open Scope list_scope. Open Scope nat_scope.

Section LayerFacts3.
  Context {N : numsys}.
  Notation st := (state N).
  Notation tr := (tree (array N)).

  (** ** A pending update changes the structure of the carry *)
  Lemma same_structure_get (d d' : dict tr) : structure (dict_tree d) = structure (dict_tree d') ->
    NoDup (dkeys d) -> NoDup (dkeys d') -> forall k t, dget k d = Some t -> exists t', dget k d' = Some t' /\ structure t = structure t'.
  Proof.
    intros E ND ND' k t Ht. rewrite <- (dget_sort d) in Ht by assumption. unfold dict_tree, structure in E. cbn [tmap] in E.
    injection E as K S. assert (X : forall e e' : dict tr, dkeys e = dkeys e' ->
      map (tmap (fun _ => tt)) (map (tmap LArr) (dvals e)) = map (tmap (fun _ => tt)) (map (tmap (@LArr N)) (dvals e')) ->
      dget k e = Some t -> exists t', dget k e' = Some t' /\ structure t = structure t').
    { clear. induction e as [|[k1 t1] e IH]; intros [|[k2 t2] e'] K S H; cbn in *; try discriminate.
      injection K as <- K. injection S as S1 S. destruct (String.eqb k k1); [|now apply IH]. injection H as ->.
      exists t2. split; [reflexivity|]. change (tmap (fun _ : pyleaf N => tt)) with (@structure (pyleaf N)) in S1. now rewrite !structure_tmap in S1. }
    destruct (X _ _ K S Ht) as (t' & H' & St). rewrite dget_sort in H' by assumption. eauto.
  Qed.
  Lemma same_abstract_updates (c c' : st) u u' m m' : same_abstract (c, u, m) (c', u', m') = true ->
    structure (dict_tree (updates c')) = structure (dict_tree (updates c)).
  Proof.
    unfold same_abstract. unfold abstract_ctrl, flatten_controller, save, tree_flatten_state, state_flatten. cbn [fst snd].
    destruct (abstract_user u) as [ul utd], (abstract_user u') as [ul' utd']. intros H. repeat rewrite andb_true_iff in H.
    destruct H as [[[[_ H] _] _] _]. unfold tdl_eqb in H. apply td_eqb_eq in H. apply (f_equal (fun t : treedef => match t with Node _ cs => nth 6 cs tnone | Leaf _ => tnone end)) in H. symmetry. exact H.
  Qed.
  Lemma abstract_idle (c c' : st) u u' m m' : proper c -> proper c' -> idle c -> same_abstract (c, u, m) (c', u', m') = true -> idle c'.
  Proof.
    intros (_ & _ & A) (_ & _ & B) I H k v Hv. apply same_abstract_updates in H.
    destruct (same_structure_get _ _ H B A k v Hv) as (w & Hw & E). specialize (I k w Hw).
    destruct w as [|[] []]; try discriminate; destruct v as [|[] []]; try discriminate; reflexivity.
  Qed.

  (** ** The contract of docstring layers *)
  Lemma fits_frame (c c' : st) U h : wf c -> same_frame c c' -> step_fits c U h -> step_fits c' U h.
  Proof.
    intros W F (A & B & C & D & E & G). assert (Sp := sf_p _ _ F). unfold sig in Sp. injection Sp as Sp1 Sp2.
    split; [exact A|]. split; [intros k; now rewrite (sf_accs _ _ F)|]. split; [|split; [exact D|split; [unfold batch_shape in *; congruence|congruence]]].
    intros k t' v Ht' Hv. assert (K : In k (dkeys (accumulators c))) by (rewrite <- (sf_accs _ _ F); apply dget_keys; eauto).
    apply dget_keys in K as [t Ht]. destruct (C k t v Ht Hv) as (C1 & C2 & C3). split; [exact C1|]. split; [exact C2|].
    destruct (sf_acc _ _ F k t t' Ht Ht') as [_ L]. rewrite Sp2. clear - L C3. revert L C3. generalize (leaves t), (leaves t'), (leaves v).
    intros l l'. revert l. induction l' as [|a' l' IH]; intros [|a l] lv L H; cbn in L; try discriminate; inversion H; subst; constructor.
    - unfold sig in L. injection L as L1 L2 L. unfold can_add in *. now rewrite L1, L2.
    - injection L as _ L. eapply IH; eauto.
  Qed.
  Lemma all_none_clean (c : st) : wf c -> all_none c -> accumulators c <> [] -> clean c.
  Proof.
    intros W A Ne. split; [exact Ne|]. split; [|intros k u Hu; now rewrite (A k u Hu)].
    intros E. destruct (accumulators c) as [|[k t] d] eqn:Ea; [contradiction|].
    assert (X : In k (dkeys (updates c))) by (apply (wf_keys_u _ W); rewrite Ea; now left). rewrite E in X. destruct X.
  Qed.

  Context (c0 : st) (next : tr -> tr) (upd : tr -> dict tr) (halt : tr -> array N) (lazy : st -> tr -> res unit).
  Notation l := (simple_layer c0 next upd halt lazy).
  Notation fits_all c u := (forall k, step_fits c (upd (nth_state next k u)) (halt (nth_state next k u))).

  Lemma accs_frame (c c' : st) : same_frame c c' -> accumulators c <> [] -> accumulators c' <> [].
  Proof.
    intros F Ne E. assert (X := sf_accs _ _ F). rewrite E in X. destruct (accumulators c); [contradiction|discriminate].
  Qed.
  Lemma simple_contract (c : st) u : wf c -> wf_pending c -> all_none c -> accumulators c <> [] -> fits_all c u -> keeps_contract l c u.
  Proof.
    intros W P A Ne F c1 u1 H. induction H as [c u|c u r c1 u1 c2 u2 Hr Hh H IH].
    - split; [now apply all_none_clean|]. intros r. cbn. destruct (strictly c _); [|discriminate]. intros [= <-]. eauto.
    - destruct (simple_step_ok c upd halt u W P A (F 0)) as (c' & E & W' & P' & A' & Fr). cbn in Hr. rewrite E in Hr. injection Hr as <-.
      cbn in Hh. destruct Hh as [-> ->]. apply IH; auto.
      + eapply accs_frame; eauto.
      + intros k. exact (fits_frame _ _ _ _ W Fr (F (S k))).
  Qed.

  Notation calls_of := (loop_calls next upd halt).
  Lemma calls_of_ok n : forall (c : st) u, wf c -> wf_pending c -> all_none c -> fits_all c u ->
    exists c', strictly c (calls_of n u) = Ok c'.
  Proof.
    induction n as [|n IH]; intros c u W P A F; cbn [loop_calls]; [cbn; eauto|]. rewrite strictly_app.
    destruct (simple_step_ok c upd halt u W P A (F 0)) as (c' & E & W' & P' & A' & Fr). rewrite E. apply IH; auto.
    intros k. exact (fits_frame _ _ _ _ W Fr (F (S k))).
  Qed.
  (** if the controller is completely halted after [n] iterations, the documented loop stops by then *)
  Lemma doc_loop_exists n : forall (c c' : st) u, wf c -> wf_pending c -> all_none c -> fits_all c u ->
    strictly c (calls_of n u) = Ok c' -> is_completely_halted c' = true ->
    exists k d, k <= n /\ doc_loop l c u k d (nth_state next k u) /\ is_completely_halted d = true.
  Proof.
    induction n as [|n IH]; intros c c' u W P A F H Hc; cbn [loop_calls] in H.
    - injection H as ->. exists 0, c'. split; [lia|]. split; [constructor; now apply all_halted_iff|exact Hc].
    - destruct (is_completely_halted c) eqn:Eh; [exists 0, c; split; [lia|]; split; [constructor; now apply all_halted_iff|exact Eh]|].
      rewrite strictly_app in H. destruct (simple_step_ok c upd halt u W P A (F 0)) as (c1 & E & W' & P' & A' & Fr). rewrite E in H.
      assert (F' : fits_all c1 (next u)) by (intros k; exact (fits_frame _ _ _ _ W Fr (F (S k)))).
      destruct (IH c1 c' (next u) W' P' A' F' H Hc) as (k & d & L & D & Hd). exists (S k), d. split; [lia|]. split; [|exact Hd].
      eapply doc_step; [now apply not_all_halted_iff| | |exact D]; cbn; [rewrite E; reflexivity|]. cbn. auto.
  Qed.
  Lemma calls_of_wf n : forall (c : st) u, fits_all c u -> Forall call_wf (calls_of n u).
  Proof.
    induction n as [|n IH]; intros c u F; cbn [loop_calls]; [constructor|]. apply Forall_app. split; [|apply (IH c); intros k; exact (F (S k))].
    destruct (F 0) as (ND & K & Fi & Ah & _). cbn in *. unfold simple_calls. apply Forall_app. split; [|repeat constructor; exact Ah].
    rewrite Forall_forall. intros x Hx. apply in_map_iff in Hx as ([k v] & <- & Hin). cbn.
    assert (Hk : In k (dkeys (upd u))) by (apply (in_map fst) in Hin; exact Hin).
    apply K, dget_keys in Hk as [t Ht]. apply (Fi k t v Ht). now apply dget_nodup.
  Qed.
  Theorem simple_execute init dep bound check n c' : wf c0 -> wf_pending c0 -> all_none c0 -> accumulators c0 <> [] -> error_mode c0 = None ->
    lazy c0 init = Ok tt -> fits_all c0 init -> abstract_user (next init) = abstract_user init ->
    strictly c0 (calls_of n init) = Ok c' -> is_completely_halted c' = true -> (Z.of_nat n <= bound)%Z ->
    exists k d, k <= n /\ execute_act l init dep bound check = Ok (d, nth_state next k init) /\ is_completely_halted d = true.
  Proof.
    intros W P A Ne Em Hl F Au Hs Hc L. destruct (doc_loop_exists n c0 c' init W P A F Hs Hc) as (k & d & Hk & D & Hd).
    assert (Pr := wf_proper _ W).
    destruct (doc_execute check l c0 init dep bound k d (nth_state next k init) (simple_typed c0 next upd halt lazy Pr)
      (simple_respects c0 next upd halt lazy) eq_refl Hl Em) as (d' & E & S); auto; try lia.
    - destruct (simple_step_ok c0 upd halt init W P A (F 0)) as (c1 & E & W' & P' & A' & Fr).
      exists (RTuple [ICtrl c1; IObj (next init)]), c1, (next init). cbn. rewrite E. repeat split; auto. now apply frame_abstract.
    - intros _. now apply simple_contract.
    - exists k, d'. split; [exact Hk|]. split; [exact E|]. rewrite <- Hd. symmetry. now apply completely_halted_same.
  Qed.
End LayerFacts3.

(** ** Liveness: the exact instance *)
Section Live.
  Notation st := (state QcNum).
  Notation tr := (tree (array QcNum)).
  Context (next : tr -> tr) (upd : tr -> dict tr) (halt : tr -> array QcNum).
  Lemma calls_of_floor (s0 : st) q n : forall u,
    (forall k i v, nth_error (a_data (halt (nth_state next k u))) i = Some v -> (q <= depression_constant s0 * clamp v)%Qc) ->
    Forall no_reset (loop_calls next upd halt n u) /\ Forall (has_floor s0 q) (loop_calls next upd halt n u) /\
    iters (loop_calls next upd halt n u) = n.
  Proof.
    induction n as [|n IH]; intros u H; cbn [loop_calls]; [repeat split; constructor|].
    destruct (IH (next u)) as (A & B & C); [intros k; exact (H (S k))|]. unfold simple_calls.
    assert (X : forall d : dict tr, Forall no_reset (map (fun kv => CCache (N := QcNum) (fst kv) (snd kv)) d) /\
      Forall (has_floor s0 q) (map (fun kv => CCache (N := QcNum) (fst kv) (snd kv)) d) /\
      filter is_iter (map (fun kv => CCache (N := QcNum) (fst kv) (snd kv)) d) = []).
    { induction d as [|x d (I1 & I2 & I3)]; cbn; repeat split; auto; constructor; auto; first [exact I|discriminate]. }
    destruct (X (upd u)) as (X1 & X2 & X3). repeat rewrite Forall_app. repeat split; auto.
    - constructor; [first [exact I|discriminate]|constructor].
    - constructor; [exact (H 0)|constructor].
    - unfold iters in *. rewrite !filter_app, X3, !app_length, C. reflexivity.
  Qed.
End Live.
