(** * Two executions that treat one element alike (C72). *)
From Verif Require Import Base PyTree Tensor Num Utils States Controller Layers Wf Spec History ElementSpec StateSpec LayerSpec SliceSpec LoopSpec.
From Verif Require Import BaseFacts PyTreeFacts TensorFacts ControllerFacts IterateFacts ResetFacts HistoryFacts StepFacts StateFacts LayerFacts LayerFacts2 LayerFacts3 LayerFacts4 SliceFacts.

Section LoopFacts.
  Context {N : numsys}.
  Notation st := (state N).
  Notation tr := (tree (array N)).

  Lemma same_row_dict_Forall2 B1 b1 B2 b2 (d1 d2 : dict tr) : NoDup (dkeys d1) -> same_row_dict B1 b1 B2 b2 d1 d2 ->
    Forall2 (same_row_call B1 b1 B2 b2) (map (fun kv => CCache (fst kv) (snd kv)) d1) (map (fun kv => CCache (fst kv) (snd kv)) d2).
  Proof.
    intros ND [K H]. revert d2 ND K H. induction d1 as [|[k1 t1] d1 IH]; intros [|[k2 t2] d2] ND K H; cbn in K; try discriminate; [constructor|].
    injection K as <- K. apply NoDup_cons_iff in ND as [Nk ND]. cbn [map fst snd]. constructor.
    - cbn. split; [reflexivity|]. apply (H k1); cbn; now rewrite String.eqb_refl.
    - apply IH; auto. intros k u1 u2 H1 H2. apply (H k); cbn; rewrite (proj2 (String.eqb_neq k k1)); auto; intros ->; apply Nk, dget_keys; eauto.
  Qed.
  Lemma loop_calls_rows B1 b1 next1 upd1 halt1 B2 b2 next2 upd2 halt2 n : forall init1 init2,
    (forall k, NoDup (dkeys (upd1 (nth_state next1 k init1)))) ->
    same_inputs (N := N) B1 b1 next1 upd1 halt1 init1 B2 b2 next2 upd2 halt2 init2 ->
    Forall2 (same_row_call B1 b1 B2 b2) (loop_calls next1 upd1 halt1 n init1) (loop_calls next2 upd2 halt2 n init2).
  Proof.
    induction n as [|n IH]; intros init1 init2 ND H; cbn [loop_calls]; [constructor|]. apply Forall2_app.
    - unfold simple_calls. destruct (H 0) as [Hh Hu]. apply Forall2_app; [|repeat constructor; exact Hh].
      apply same_row_dict_Forall2; [exact (ND 0)|exact Hu].
    - apply IH; [intros k; exact (ND (S k))|intros k; exact (H (S k))].
  Qed.
  Lemma loop_no_reset next upd halt n : forall init : tr, Forall (fun c => c <> CReset) (loop_calls (N := N) next upd halt n init).
  Proof.
    induction n as [|n IH]; intros init; cbn [loop_calls]; [constructor|]. apply Forall_app. split; [|apply IH]. unfold simple_calls.
    apply Forall_app. split; [|repeat constructor; discriminate]. apply Forall_forall. intros x Hx. apply in_map_iff in Hx as (kv & <- & _). discriminate.
  Qed.
  Lemma loop_calls_split next upd halt n m : forall init : tr,
    loop_calls (N := N) next upd halt (n + m) init = loop_calls next upd halt n init ++ loop_calls next upd halt m (nth_state next n init).
  Proof.
    induction n as [|n IH]; intros init; cbn [plus loop_calls nth_state]; [reflexivity|]. now rewrite IH, app_assoc.
  Qed.

  (** Rows that agree, then each side frozen. *)
  Lemma frozen_row b1 B1 b2 B2 R (a1 a2 a1' a2' : array N) :
    a_shape a1 = B1 ++ R -> a_shape a2 = B2 ++ R -> a_dt a1 = a_dt a2 ->
    (forall j, j < size R -> nth_error (a_data a1) (b1 * size R + j) = nth_error (a_data a2) (b2 * size R + j)) ->
    sig a1' = sig a1 -> sig a2' = sig a2 ->
    (forall j, j / size R = b1 -> nth_error (a_data a1') j = nth_error (a_data a1) j) ->
    (forall j, j / size R = b2 -> nth_error (a_data a2') j = nth_error (a_data a2) j) ->
    same_row B1 b1 B2 b2 a1' a2'.
  Proof.
    intros S1 S2 D H G1 G2 F1 F2. unfold sig in *. injection G1 as G1 G1'. injection G2 as G2 G2'. exists R.
    split; [congruence|]. split; [congruence|]. split; [congruence|]. intros j Hj.
    assert (Q : forall b, (b * size R + j) / size R = b).
    { intros b. rewrite Nat.div_add_l by lia. rewrite Nat.div_small by exact Hj. lia. }
    rewrite (F1 _ (Q b1)), (F2 _ (Q b2)). now apply H.
  Qed.
  Lemma frozen_results b1 (s1 s1' : st) b2 (s2 s2' : st) : wf s1 -> wf s2 ->
    same_rows b1 s1 b2 s2 -> same_frame s1 s1' -> same_frame s2 s2' ->
    same_element b1 s1 s1' -> same_element b2 s2 s2' -> same_results b1 s1' b2 s2'.
  Proof.
    intros W1 W2 H F1 F2 (R1 & I1 & A1) (R2 & I2 & A2).
    assert (Z : forall (a1 a2 : array N), same_row (batch_shape s1) b1 (batch_shape s2) b2 a1 a2 -> a_shape a1 = batch_shape s1 ->
              nth_error (a_data a1) b1 = nth_error (a_data a2) b2).
    { intros a1 a2 (R & E1 & E2 & _ & E) S. assert (R = []) by (destruct R; [reflexivity|]; rewrite S in E1; apply (f_equal (@length _)) in E1; rewrite app_length in E1; cbn in E1; lia).
      subst R. specialize (E 0). cbn in E. rewrite !Nat.mul_1_r, !Nat.add_0_r in E. apply E. lia. }
    assert (B1 : batch_shape s1' = batch_shape s1) by (assert (X := sf_p _ _ F1); unfold sig in X; injection X as X _; exact X).
    assert (B2 : batch_shape s2' = batch_shape s2) by (assert (X := sf_p _ _ F2); unfold sig in X; injection X as X _; exact X).
    split.
    - rewrite R1, R2. apply Z; [apply H|apply wf_r_shape, W1].
    - rewrite I1, I2. apply Z; [apply H|apply wf_i_shape, W1].
    - intros k. rewrite (sf_accs _ _ F1), (sf_accs _ _ F2). destruct (sr_acc _ _ _ _ H) as [K _]. now rewrite K.
    - intros k t1' t2' H1' H2'. rewrite B1, B2.
      assert (K1 : In k (dkeys (accumulators s1))) by (rewrite <- (sf_accs _ _ F1); apply dget_keys; eauto). apply dget_keys in K1 as [t1 H1].
      assert (K2 : In k (dkeys (accumulators s2))) by (rewrite <- (sf_accs _ _ F2); apply dget_keys; eauto). apply dget_keys in K2 as [t2 H2].
      destruct (sr_acc _ _ _ _ H) as [_ K]. destruct (K k t1 t2 H1 H2) as [St L].
      assert (L1 := sf_acc _ _ F1 k t1 t1' H1 H1'). assert (L2 := sf_acc _ _ F2 k t2 t2' H2 H2').
      split; [rewrite (proj1 L1), (proj1 L2); exact St|]. apply Forall2_nth in L as [Len L]. apply Forall2_nth. split.
      + rewrite (alike_len _ _ L1), (alike_len _ _ L2). exact Len.
      + intros i a1' a2' Ha1 Ha2.
        destruct (nth_error_same_length (leaves t1') (leaves t1) i a1') as [a1 X1]; [apply alike_len; exact L1|exact Ha1|].
        destruct (nth_error_same_length (leaves t2') (leaves t2) i a2') as [a2 X2]; [apply alike_len; exact L2|exact Ha2|].
        destruct (L i a1 a2 X1 X2) as (R & S1 & S2 & D & E).
        eapply (frozen_row b1 (batch_shape s1) b2 (batch_shape s2) R a1 a2); eauto.
        * exact (alike_nth _ _ _ _ _ L1 Ha1 X1).
        * exact (alike_nth _ _ _ _ _ L2 Ha2 X2).
  Qed.
  Lemma results_same b1 (s1 s1' : st) b2 (s2 s2' : st) : same_state s1' s1 -> same_state s2' s2 ->
    same_results b1 s1 b2 s2 -> same_results b1 s1' b2 s2'.
  Proof.
    intros S1 S2 H. split.
    - rewrite (ss_r _ _ S1), (ss_r _ _ S2). apply H.
    - rewrite (ss_i _ _ S1), (ss_i _ _ S2). apply H.
    - intros k. rewrite !dget_keys, (ss_acc _ _ S1), (ss_acc _ _ S2), <- !dget_keys. apply H.
    - intros k t1 t2 H1 H2. unfold batch_shape. rewrite (ss_p _ _ S1), (ss_p _ _ S2). rewrite (ss_acc _ _ S1) in H1. rewrite (ss_acc _ _ S2) in H2.
      exact (rs_acc _ _ _ _ H k t1 t2 H1 H2).
  Qed.

  Lemma fresh_wf_pending0 (s : st) : fresh s -> wf_pending s.
  Proof. intros (_ & _ & _ & _ & U) k u Hu. rewrite (U k u Hu). constructor. Qed.

  (** [frozen] says that halted elements stay frozen. *)
  Section Two.
  Context (c1 : st) (next1 : tr -> tr) (upd1 : tr -> dict tr) (halt1 : tr -> array N) (init1 : tr) (b1 : nat)
    (c2 : st) (next2 : tr -> tr) (upd2 : tr -> dict tr) (halt2 : tr -> array N) (init2 : tr) (b2 : nat).
  Notation run1 n := (run c1 (loop_calls next1 upd1 halt1 n init1)).
  Notation run2 n := (run c2 (loop_calls next2 upd2 halt2 n init2)).
  Notation halted s i := (nth_error (data (halted_batches s)) i).
  Context (W1 : wf c1) (Fr1 : fresh c1) (W2 : wf c2) (Fr2 : fresh c2)
    (Fi1 : forall k, step_fits c1 (upd1 (nth_state next1 k init1)) (halt1 (nth_state next1 k init1)))
    (Fi2 : forall k, step_fits c2 (upd2 (nth_state next2 k init2)) (halt2 (nth_state next2 k init2)))
    (SR : same_rows b1 c1 b2 c2)
    (SI : same_inputs (batch_shape c1) b1 next1 upd1 halt1 init1 (batch_shape c2) b2 next2 upd2 halt2 init2)
    (Z1 : forall n m, halted (run1 n) b1 = Some true -> same_element b1 (run1 n) (run1 (n + m)))
    (Z2 : forall n m, halted (run2 n) b2 = Some true -> same_element b2 (run2 n) (run2 (n + m))).

  Lemma two_wf1 m : Forall call_wf (loop_calls next1 upd1 halt1 m init1). Proof. eapply calls_of_wf; eauto. Qed.
  Lemma two_wf2 m : Forall call_wf (loop_calls next2 upd2 halt2 m init2). Proof. eapply calls_of_wf; eauto. Qed.
  Lemma two_rows n : same_rows b1 (run1 n) b2 (run2 n).
  Proof.
    apply run_rows; auto using two_wf1, two_wf2, fresh_wf_pending0.
    - apply loop_calls_rows; [intros k; apply (Fi1 k)|exact SI].
    - intros X. exfalso. assert (Y := loop_no_reset next1 upd1 halt1 n init1). rewrite Forall_forall in Y. now apply (Y CReset X).
  Qed.
  Lemma two_halted n : halted (run1 n) b1 = halted (run2 n) b2.
  Proof.
    assert (Rn := two_rows n). rewrite !halted_data, !nth_error_map. destruct (sr_p _ _ _ _ Rn) as (R & S & S' & _ & E).
    assert (R = []) by (destruct R; [reflexivity|]; unfold batch_shape in S; apply (f_equal (@length _)) in S; rewrite app_length in S; cbn in S; lia). subst R.
    specialize (E 0). cbn in E. rewrite !Nat.mul_1_r, !Nat.add_0_r in E. rewrite E by lia. unfold halted_at, threshold.
    now rewrite (sr_eps _ _ _ _ Rn).
  Qed.
  Lemma same_element_here b (s : st) : same_element b s s.
  Proof.
    split; [reflexivity|]. split; [reflexivity|]. intros k t t' H H' l a a' Ha Ha'. assert (t = t') by congruence. subst t'.
    assert (a = a') by congruence. now subst a'.
  Qed.
  Lemma two_results n1 n2 : n1 = n2 \/ halted (run1 (Nat.min n1 n2)) b1 = Some true -> same_results b1 (run1 n1) b2 (run2 n2).
  Proof.
    intros Hn. set (n := Nat.min n1 n2) in *.
    destruct (run_wf c1 _ W1 (fresh_wf_pending0 _ Fr1) (two_wf1 n)) as [Wn1 Pn1]. destruct (run_wf c2 _ W2 (fresh_wf_pending0 _ Fr2) (two_wf2 n)) as [Wn2 Pn2].
    assert (Fx1 : same_frame (run1 n) (run1 n1)).
    { replace n1 with (n + (n1 - n)) by (unfold n; lia). rewrite loop_calls_split, run_app. apply run_frame; auto.
      assert (X := two_wf1 (n + (n1 - n))). rewrite loop_calls_split in X. now apply Forall_app in X. }
    assert (Fx2 : same_frame (run2 n) (run2 n2)).
    { replace n2 with (n + (n2 - n)) by (unfold n; lia). rewrite loop_calls_split, run_app. apply run_frame; auto.
      assert (X := two_wf2 (n + (n2 - n))). rewrite loop_calls_split in X. now apply Forall_app in X. }
    apply (frozen_results b1 _ _ b2 _ _ Wn1 Wn2 (two_rows n) Fx1 Fx2).
    - destruct Hn as [->|Hn]; [replace n with n2 by (unfold n; lia); apply same_element_here|].
      assert (X := Z1 n (n1 - n) Hn). replace (n + (n1 - n)) with n1 in X by (unfold n; lia). exact X.
    - destruct Hn as [->|Hn]; [replace n with n2 by (unfold n; lia); apply same_element_here|]. rewrite two_halted in Hn.
      assert (X := Z2 n (n2 - n) Hn). replace (n + (n2 - n)) with n2 in X by (unfold n; lia). exact X.
  Qed.

  Context (lazy1 lazy2 : st -> tr -> res unit) (dep1 dep2 : scl N) (bound1 bound2 : Z) (check1 check2 : bool) (c1' c2' : st) (u1' u2' : tr)
    (E1 : execute_act (simple_layer c1 next1 upd1 halt1 lazy1) init1 dep1 bound1 check1 = Ok (c1', u1'))
    (E2 : execute_act (simple_layer c2 next2 upd2 halt2 lazy2) init2 dep2 bound2 check2 = Ok (c2', u2')).

  (** The element is halted at the end of both executions. *)
  Theorem executions_agree : halted c1' b1 = Some true -> halted c2' b2 = Some true -> same_results b1 c1' b2 c2'.
  Proof.
    intros H1 H2.
    destruct (execute_history _ _ _ _ _ _ _ _ _ _ _ (wf_proper _ W1) E1) as (n1 & _ & _ & S1 & _).
    destruct (execute_history _ _ _ _ _ _ _ _ _ _ _ (wf_proper _ W2) E2) as (n2 & _ & _ & S2 & _).
    apply (results_same _ _ _ _ _ _ S1 S2). rewrite <- (halted_same _ _ S1) in H1. rewrite <- (halted_same _ _ S2) in H2.
    apply two_results. right. destruct (Nat.le_ge_cases n1 n2) as [L|L]; [now rewrite Nat.min_l by exact L|].
    rewrite two_halted. now rewrite Nat.min_r by exact L.
  Qed.
  Lemma all_halted_at (s : st) b : all_halted s -> b < length (a_data (probabilities s)) -> halted s b = Some true.
  Proof.
    intros H Hb. destruct (nth_error_lt _ _ Hb) as [p Hp]. rewrite halted_data, nth_error_map. rewrite Hp. cbn. f_equal.
    exact (H p (nth_error_In _ _ Hp)).
  Qed.
  (** The bound is the same: no matter whether the element halts. *)
  Theorem executions_agree_bound : bound1 = bound2 -> same_results b1 c1' b2 c2'.
  Proof.
    intros Eb.
    destruct (execute_history _ _ _ _ _ _ _ _ _ _ _ (wf_proper _ W1) E1) as (n1 & _ & B1 & S1 & _ & C1 & _).
    destruct (execute_history _ _ _ _ _ _ _ _ _ _ _ (wf_proper _ W2) E2) as (n2 & _ & B2 & S2 & _ & C2 & _).
    apply (results_same _ _ _ _ _ _ S1 S2). apply two_results.
    assert (R := two_rows n1). assert (R' := two_rows n2).
    destruct (run_wf c1 _ W1 (fresh_wf_pending0 _ Fr1) (two_wf1 n1)) as [Wn1 _]. destruct (run_wf c2 _ W2 (fresh_wf_pending0 _ Fr2) (two_wf2 n2)) as [Wn2 _].
    destruct (Nat.lt_total n1 n2) as [L|[L|L]]; [right|now left|right].
    - rewrite Nat.min_l by lia. destruct C1 as [C1|C1]; [|lia]. rewrite (halted_same _ _ S1). apply all_halted_at; [exact C1|].
      rewrite (ss_p _ _ S1), (wf_batch_len _ Wn1). apply R.
    - rewrite Nat.min_r by lia. destruct C2 as [C2|C2]; [|lia]. rewrite two_halted, (halted_same _ _ S2). apply all_halted_at; [exact C2|].
      rewrite (ss_p _ _ S2), (wf_batch_len _ Wn2). apply R'.
  Qed.
  End Two.

  (** ** One element cut out of the batch *)
  Lemma Forall_row {A} (P : A -> Prop) n m l : Forall P l -> Forall P (firstn n (skipn m l)).
  Proof.
    intros H. rewrite <- (firstn_skipn m l) in H. apply Forall_app in H as [_ H]. rewrite <- (firstn_skipn n (skipn m l)) in H. now apply Forall_app in H.
  Qed.
  Lemma alone_fresh b (c : st) : wf c -> fresh c -> fresh (alone b c).
  Proof.
    intros W (A & B & C & D & E). unfold alone. repeat split; cbn [probabilities residuals iterations accumulators defaults updates].
    - now apply Forall_row.
    - now apply Forall_row.
    - now apply Forall_row.
    - intros k. rewrite !dget_row, D. reflexivity.
    - intros k u. rewrite dget_row. destruct (dget k (updates c)) as [u0|] eqn:Eu; [|discriminate]. rewrite (E k u0 Eu). now intros [= <-].
  Qed.
  Lemma step_fits_fits (c : st) upds h : wf c -> step_fits c upds h ->
    (forall k v, dget k upds = Some v -> Forall (fits (batch_shape c)) (leaves v)) /\ fits (batch_shape c) h.
  Proof.
    intros W (ND & K & A & Aw & Sh & _). split; [|now apply batch_fits].
    intros k v Hv. assert (Hin : In k (dkeys (accumulators c))) by (apply K, dget_keys; eauto). apply dget_keys in Hin as [t Ht].
    destruct (A k t v Ht Hv) as (_ & V & C). apply Forall_forall. intros a Ha. split; [rewrite Forall_forall in V; now apply V|].
    apply In_nth_error in Ha as [i Hi]. apply Forall2_nth in C as [Len C].
    destruct (nth_error_same_length (leaves v) (leaves t) i a (eq_sym Len) Hi) as [x Hx]. destruct (C i x a Hx Hi) as [S _].
    destruct (Forall_nth _ _ _ _ (wf_acc _ W _ _ Ht) Hx) as (_ & _ & R & HR). exists R. congruence.
  Qed.
  Lemma alone_step_fits b (c : st) upds h : wf c -> b < size (batch_shape c) -> step_fits c upds h ->
    step_fits (alone b c) (row_dict (batch_shape c) b upds) (row (batch_shape c) b h).
  Proof.
    intros W Hb F. destruct (step_fits_fits c upds h W F) as [F1 F2]. destruct F as (ND & K & A & Aw & Sh & Dt).
    split; [now rewrite dkeys_row|]. split.
    { intros k. rewrite dkeys_row, K. cbn [alone accumulators]. now rewrite dkeys_row. }
    split; [|split; [now apply row_awf|split; [rewrite alone_shape; apply row_shape; now rewrite app_nil_r|exact Dt]]].
    intros k t v Ht Hv. cbn [alone accumulators] in Ht. rewrite dget_row in Ht, Hv.
    destruct (dget k (accumulators c)) as [t0|] eqn:Et; [|discriminate]. destruct (dget k upds) as [v0|] eqn:Ev; [|discriminate].
    injection Ht as <-. injection Hv as <-. destruct (A k t0 v0 Et Ev) as (N0 & V & C).
    split; [unfold row_tree; destruct v0 as [|n ts]; [reflexivity|]; destruct n; try reflexivity; exact N0|].
    unfold row_tree. rewrite !leaves_tmap. split.
    - apply Forall_map. eapply Forall_impl; [|exact (F1 k v0 Ev)]. intros a Ha. now apply row_awf.
    - clear - C. induction C as [|x y l l' [S P] C IH]; cbn [map]; constructor; auto. split; [|exact P].
      unfold row, a_shape. cbn. unfold a_shape in S. now rewrite S.
  Qed.
  Lemma alone_inputs b (c : st) next upd halt init : wf c ->
    (forall k, step_fits c (upd (nth_state next k init)) (halt (nth_state next k init))) ->
    same_inputs (batch_shape c) b next upd halt init (batch_shape (alone b c)) 0 next (fun u => row_dict (batch_shape c) b (upd u))
      (fun u => row (batch_shape c) b (halt u)) init.
  Proof.
    intros W Fi k. rewrite alone_shape. destruct (step_fits_fits c _ _ W (Fi k)) as [A B]. split; [now apply row_same|now apply row_dict_same].
  Qed.
End LoopFacts.
