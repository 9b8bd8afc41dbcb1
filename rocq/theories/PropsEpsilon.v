(** * C107: epsilon changed in the middle of a computation. Vocabulary: ElementSpec.v, History.v. *)
From Coq Require Import QArith Qcanon Lia.
From Verif Require Import Base PyTree Tensor Num Utils States Controller Builder Editor Wf Spec History ElementSpec ScalarSpec.
From Verif Require Import BaseFacts QcFacts ControllerFacts IterateFacts HistoryFacts ExactFacts ElementFacts ScalarFacts MonoFacts SpecFacts EditorFacts Samples PropsController PropsScalar PropsMono.
Close Scope Qc_scope. Close Scope Q_scope. Open Scope string_scope. Open Scope list_scope. Open Scope nat_scope.

Notation st := (state QcNum).
Definition with_epsilon (s : st) (x : Qc) : st :=
  mkState (N := QcNum) x (iterations s) (residuals s) (probabilities s) (defaults s) (accumulators s) (updates s) (depression_constant s) (error_mode s).
Lemma set_epsilon_accepted (s : st) (x : Qc) : (0 < x)%Qc -> (x <= 1)%Qc ->
  set_epsilon (N := QcNum) (mkEd s "standard") x = Ok (mkEd (with_epsilon s x) "standard").
Proof.
  intros A B. apply (set_epsilon_char (mkEd s "standard") x eq_refl). split; apply Qcleb_le; [now apply Qclt_le_weak|exact B].
Qed.
Lemma with_epsilon_wf (s : st) x : wf s -> wf (with_epsilon s x). Proof. intros []. split; auto. Qed.
Lemma halted_p (s : st) i p r n : element s i p r n -> halted s i = Some (Qcltb (1 - epsilon s) p).
Proof. intros (H & _). unfold halted. now rewrite (halted_get _ _ _ H). Qed.

(** Raised: an element that is still running at [1 - x < p] has from now on halted, with residual 0. Nothing that follows (short of a reset) adds to
    its accumulators or its residual, although only the share [p < 1] of the weights has been handed out; every later iteration reports the cumulative
    probability 1. *)
Theorem C107_refuted (s0 : st) cs i p r n x :
  (0 < epsilon s0)%Qc -> (epsilon s0 <= 1)%Qc -> (0 <= depression_constant s0)%Qc ->
  wf s0 -> fresh s0 -> Forall call_wf cs -> element (run s0 cs) i p r n -> halted (run s0 cs) i = Some false ->
  (x <= 1)%Qc -> (1 - x < p)%Qc ->
  exists c, set_epsilon (N := QcNum) (mkEd (run s0 cs) "standard") x = Ok (mkEd c "standard") /\
    (p < 1)%Qc /\ halted c i = Some true /\
    forall calls, Forall call_wf calls -> Forall (fun c => c <> CReset) calls ->
      halted (run c calls) i = Some true /\ (residuals (run c calls)).[i] = Some 0%Qc /\ same_element i (run s0 cs) (run c calls) /\
      forall h c2, awf h -> iterate_act (run c calls) h = Ok c2 -> (probabilities c2).[i] = Some 1%Qc.
Proof.
  intros E0 E1 D0 W F C El H X1 Xp. pose proof (fresh_wf_pending _ F) as P.
  destruct (run_wf s0 cs W P C) as [W' P']. pose proof (run_frame s0 cs W P C) as Fr.
  pose proof (C69_residual_at_least_epsilon s0 cs i p r n E0 E1 D0 W F C El) as [_ R0]. specialize (R0 H). subst r.
  rewrite (halted_p _ _ _ _ _ El), (sf_eps _ _ Fr) in H. injection H as H. apply Qcltb_ge in H.
  assert (L : (p < 1)%Qc) by (revert H E0; clear; qc). assert (X0 : (0 < x)%Qc) by (revert L Xp; clear; qc).
  exists (with_epsilon (run s0 cs) x). split; [now apply set_epsilon_accepted|]. split; [exact L|].
  assert (Hh : halted (with_epsilon (run s0 cs) x) i = Some true).
  { rewrite (halted_p (with_epsilon (run s0 cs) x) i p 0%Qc n El). cbn [epsilon with_epsilon]. f_equal. now apply Qcltb_lt. }
  split; [exact Hh|]. intros calls Fc Nr.
  assert (D : (0 <= depression_constant (with_epsilon (run s0 cs) x))%Qc) by (cbn [depression_constant with_epsilon]; now rewrite (sf_dep _ _ Fr)).
  pose proof (C03_halted_elements_frozen_forever (with_epsilon (run s0 cs) x) calls i (with_epsilon_wf _ x W') P' Fc Nr X0 D Hh) as S.
  pose proof (C04_halting_is_permanent _ calls i (with_epsilon_wf _ x W') P' Fc Nr X0 D Hh) as Hf. split; [exact Hf|].
  split; [rewrite (proj1 S); apply El|]. split; [exact S|]. intros h c2 Ha It.
  destruct (run_wf _ calls (with_epsilon_wf _ x W') P' Fc) as [Wr Pr]. pose proof (run_frame _ calls (with_epsilon_wf _ x W') P' Fc) as Fr2.
  destruct (halted_get_inv _ _ _ Hf) as (pr & Hp & Ho). destruct (iterate_committed _ h c2 Wr Pr Ha It) as (Cm & W2 & _).
  destruct (proj1 (iterate_ok_iff _ h Wr Pr Ha) (ex_intro _ _ It)) as (Hs & _ & _).
  destruct (nth_error_same_length (a_data (probabilities (run (with_epsilon (run s0 cs) x) calls))) (a_data h) i pr) as [v Hv]; auto.
  { rewrite (wf_batch_len _ Wr). unfold awf, twf in Ha. fold (a_shape h) in Ha. fold (a_data h) in Ha. congruence. }
  refine (eq_trans (cm_p _ _ _ Cm i pr v Hp Hv) _). f_equal.
  refine (proj1 (next_p_halted _ pr v _ _ _)); [rewrite (sf_eps _ _ Fr2); exact X0|rewrite (sf_dep _ _ Fr2); exact D|congruence].
Qed.
Print Assumptions C107_refuted.

(** Once an iteration has followed, setting epsilon back (to any value) does not repair it: the element counts as halted with cumulative probability 1. *)
Theorem C107_setting_it_back_is_no_repair (s0 : st) cs i p r n x calls h y :
  (0 < epsilon s0)%Qc -> (epsilon s0 <= 1)%Qc -> (0 <= depression_constant s0)%Qc ->
  wf s0 -> fresh s0 -> Forall call_wf cs -> element (run s0 cs) i p r n -> halted (run s0 cs) i = Some false ->
  (x <= 1)%Qc -> (1 - x < p)%Qc -> Forall call_wf calls -> Forall (fun c => c <> CReset) calls -> awf h -> (0 < y)%Qc -> (y <= 1)%Qc ->
  exists c, set_epsilon (N := QcNum) (mkEd (run s0 cs) "standard") x = Ok (mkEd c "standard") /\
    forall c2, iterate_act (run c calls) h = Ok c2 ->
      exists c3, set_epsilon (N := QcNum) (mkEd c2 "standard") y = Ok (mkEd c3 "standard") /\
        halted c3 i = Some true /\ (probabilities c3).[i] = Some 1%Qc /\ (residuals c3).[i] = Some 0%Qc /\ same_element i (run s0 cs) c3.
Proof.
  intros E0 E1 D0 W F C El H X1 Xp Fc Nr Ha Y0 Y1.
  destruct (C107_refuted s0 cs i p r n x E0 E1 D0 W F C El H X1 Xp) as (c & Hc & _ & _ & G). exists c. split; [exact Hc|]. intros c2 It.
  destruct (G calls Fc Nr) as (_ & _ & _ & Hp). specialize (Hp h c2 Ha It).
  assert (Fc' : Forall call_wf (calls ++ [CIter h])) by (apply Forall_app; split; [exact Fc|repeat constructor; exact Ha]).
  assert (Nr' : Forall (fun c => c <> CReset) (calls ++ [CIter h])) by (apply Forall_app; split; [exact Nr|repeat constructor; discriminate]).
  destruct (G _ Fc' Nr') as (_ & R & S & _).
  assert (Rn : run c (calls ++ [CIter h]) = c2) by (rewrite run_app, run_cons; unfold after; cbn [apply_call]; rewrite It; reflexivity).
  rewrite Rn in R, S. exists (with_epsilon c2 y). split; [now apply set_epsilon_accepted|].
  split.
  { unfold halted. rewrite (halted_get (with_epsilon c2 y) i 1%Qc Hp). f_equal. unfold halted_at, threshold.
    cbn [epsilon with_epsilon v_ltb v_of_scl s_one_sub QcNum]. apply Qcltb_lt. revert Y0. clear. qc. }
  split; [exact Hp|]. split; [exact R|exact S].
Qed.
Print Assumptions C107_setting_it_back_is_no_repair.

(** the statistics of one element, as long as the computation lasts *)
Definition complete (s : st) : Prop := forall i p r n, element s i p r n -> remainder_ok (1 - epsilon s) (mkStats (N := QcNum) p r n).
Lemma complete_after (s : st) c : wf s -> wf_pending s -> call_wf c -> (0 < epsilon s)%Qc -> (epsilon s <= 1)%Qc -> (0 <= depression_constant s)%Qc ->
  complete s -> complete (after s c).
Proof.
  intros W P Hc E0 E1 D Cm i p' r' n' El. pose proof (after_frame s c W P Hc) as Fr. rewrite (sf_eps _ _ Fr).
  assert (HT : (1 - epsilon s < 1)%Qc) by (revert E0; clear; qc). assert (T0 : (0 <= 1 - epsilon s)%Qc) by (revert E1; clear; qc).
  destruct (after_element s c i p' r' n' W P Hc El) as (p & r & n & El0 & [(_ & -> & -> & ->)|[(h & v & _ & _ & _ & -> & -> & ->)|(_ & -> & -> & ->)]]).
  - exact (Cm _ _ _ _ El0).
  - exact (remainder_event _ _ HT T0 D (mkStats (N := QcNum) p r n) (Some v) (Cm _ _ _ _ El0)).
  - pose proof (remainder_event _ _ HT T0 D (mkStats (N := QcNum) p r n) None (Cm _ _ _ _ El0)) as X.
    pose proof (fun v => reset_kept s (mkStats (N := QcNum) p r n) v) as K. cbn [cumulative] in K. rewrite (K p), (K r), (K n). exact X.
Qed.
Lemma complete_run cs : forall s : st, wf s -> wf_pending s -> Forall call_wf cs -> (0 < epsilon s)%Qc -> (epsilon s <= 1)%Qc -> (0 <= depression_constant s)%Qc ->
  complete s -> complete (run s cs).
Proof.
  induction cs as [|c cs IH]; intros s W P F E0 E1 D C; [exact C|]. inversion F; subst. rewrite run_cons.
  destruct (after_wf s c W P) as [W' P']; [assumption|]. assert (Fr : same_frame s (after s c)) by (now apply after_frame).
  apply IH; auto; try (rewrite (sf_eps _ _ Fr); assumption); [rewrite (sf_dep _ _ Fr); assumption|]. now apply complete_after.
Qed.
(** Lowered (or kept): nobody's state of halting changes, and whatever follows, halted elements have handed out everything, with a residual of at least
    the new epsilon. *)
Theorem C107_partial (s0 : st) cs x :
  (0 < epsilon s0)%Qc -> (epsilon s0 <= 1)%Qc -> (0 <= depression_constant s0)%Qc ->
  wf s0 -> fresh s0 -> Forall call_wf cs -> (0 < x)%Qc -> (x <= epsilon s0)%Qc ->
  exists c, set_epsilon (N := QcNum) (mkEd (run s0 cs) "standard") x = Ok (mkEd c "standard") /\
    (forall i, halted c i = halted (run s0 cs) i) /\
    forall calls i p r n, Forall call_wf calls -> element (run c calls) i p r n ->
      (halted (run c calls) i = Some true -> p = 1%Qc /\ (x <= r)%Qc /\ (r <= 1)%Qc) /\ (halted (run c calls) i = Some false -> (p <= 1 - x)%Qc /\ r = 0%Qc).
Proof.
  intros E0 E1 D0 W F C X0 Xe. pose proof (fresh_wf_pending _ F) as P. destruct (run_wf s0 cs W P C) as [W' P']. pose proof (run_frame s0 cs W P C) as Fr.
  assert (X1 : (x <= 1)%Qc) by (revert Xe E1; clear; qc).
  exists (with_epsilon (run s0 cs) x). split; [now apply set_epsilon_accepted|].
  assert (All : forall i p r n, element (run s0 cs) i p r n -> Qcltb (1 - x) p = Qcltb (1 - epsilon s0) p /\ remainder_ok (1 - x) (mkStats (N := QcNum) p r n)).
  { intros i p r n El. destruct (C69_residual_at_least_epsilon s0 cs i p r n E0 E1 D0 W F C El) as [A B].
    assert (Rg : (0 <= p /\ p <= 1)%Qc).
    { destruct (C64_every_element_runs_the_scalar_program s0 cs W F C) as [S _]. specialize (S _ _ _ _ El). cbn [v_of_scl s_one_sub QcNum] in S.
      assert (HT : (1 - epsilon s0 < 1)%Qc) by (revert E0; clear; qc). assert (T0 : (0 <= 1 - epsilon s0)%Qc) by (revert E1; clear; qc).
      assert (Q : remainder_ok (1 - epsilon s0) (mkStats (N := QcNum) p r n)).
      { rewrite S. exact (remainder_run _ _ HT T0 D0 (stats_program i (returned s0 cs)) stats0 (remainder0 _ T0)). }
      split; apply Q. }
    rewrite (halted_p _ _ _ _ _ El), (sf_eps _ _ Fr) in A, B. unfold remainder_ok, is_over. cbn [cumulative remainder v_ltb QcNum].
    destruct (Qcltb (1 - epsilon s0) p) eqn:O.
    - destruct (A eq_refl) as (-> & R1 & R2). replace (Qcltb (1 - x) 1) with true by (symmetry; apply Qcltb_lt; revert X0; clear; qc).
      split; [reflexivity|]. split; [apply Rg|]. split; [apply Rg|]. split; [reflexivity|]. split; [revert R1 Xe; clear; qc|exact R2].
    - apply Qcltb_ge in O. replace (Qcltb (1 - x) p) with false by (symmetry; apply Qcltb_ge; revert O Xe; clear; qc).
      split; [reflexivity|]. split; [apply Rg|]. split; [apply Rg|]. now apply B. }
  split.
  - intros i. unfold halted. destruct (nth_error (a_data (probabilities (run s0 cs))) i) as [p|] eqn:Hp.
    + destruct (element_exists (run s0 cs) i p W' Hp) as (r & n & El). fold (halted (with_epsilon (run s0 cs) x) i). fold (halted (run s0 cs) i).
      rewrite (halted_p _ _ _ _ _ El), (halted_p (with_epsilon (run s0 cs) x) _ _ _ _ El), (sf_eps _ _ Fr). cbn [epsilon with_epsilon]. f_equal. apply (All _ _ _ _ El).
    + assert (Z : forall s : st, nth_error (a_data (probabilities s)) i = None -> nth_error (data (halted_batches s)) i = None).
      { intros s Hs. unfold halted_batches, gt_scl, tensor_map. cbn [data]. apply nth_error_None. rewrite map_length. now apply nth_error_None. }
      rewrite !Z by exact Hp. reflexivity.
  - intros calls i p r n Fc El. set (c := with_epsilon (run s0 cs) x) in *.
    assert (Wc : wf c) by (now apply with_epsilon_wf).
    assert (Dc : (0 <= depression_constant c)%Qc) by (unfold c; cbn [depression_constant with_epsilon]; now rewrite (sf_dep _ _ Fr)).
    assert (Cc : complete c) by (intros j p0 r0 n0 E; apply (All j p0 r0 n0 E)).
    pose proof (complete_run calls c Wc P' Fc X0 X1 Dc Cc i p r n El) as (_ & _ & Q).
    pose proof (sf_eps _ _ (run_frame c calls Wc P' Fc)) as Ec. change (epsilon c) with x in Ec.
    rewrite (halted_p _ _ _ _ _ El), Ec in *. unfold is_over in Q. cbn [cumulative remainder v_ltb QcNum] in Q.
    destruct (Qcltb (1 - x) p) eqn:O; split; intros Y; try discriminate.
    + destruct Q as (Q1 & Q2 & Q3). split; [exact Q1|]. split; [revert Q2; clear; qc|exact Q3].
    + split; [now apply Qcltb_ge|exact Q].
Qed.
Print Assumptions C107_partial.

(** The exact condition. [settled e x p r]: what the rule says of an element with cumulative probability [p] and residual [r] when epsilon is [x] and
    was [e] before. *)
Definition settled (e x p r : Qc) (is_halted : bool) : Prop :=
  if is_halted then p = 1%Qc /\ ((x <= r)%Qc \/ (e <= r)%Qc) /\ (r <= 1)%Qc else (p <= 1 - x)%Qc /\ r = 0%Qc.
Definition settled_st (e x : Qc) (y : stats QcNum) : Prop :=
  (0 <= cumulative y)%Qc /\ (cumulative y <= 1)%Qc /\ settled e x (cumulative y) (remainder y) (Qcltb (1 - x) (cumulative y)).
Lemma settled_event (e x d : Qc) y ev : (0 < x)%Qc -> (x <= 1)%Qc -> (0 <= d)%Qc -> settled_st e x y -> settled_st e x (stats_event (N := QcNum) (1 - x)%Qc d y ev).
Proof.
  intros X0 X1 D (A & B & C). assert (HT : (1 - x < 1)%Qc) by (revert X0; clear; qc). assert (T0 : (0 <= 1 - x)%Qc) by (revert X1; clear; qc).
  unfold settled in C. destruct (Qcltb (1 - x) (cumulative y)) eqn:O.
  - (* halted: stays as it is, or is reset *)
    destruct C as (C1 & C2 & C3). destruct ev as [v|]; cbn [stats_event].
    + assert (Of : (0 <= offered (N := QcNum) d v)%Qc) by (rewrite offered_exact; apply Qcmult_nonneg; [exact D|apply clamp_range]).
      unfold settled_st, settled, stats_step, is_over, used, goes_over. cbn [cumulative remainder v_ltb v_add v_sub v_one QcNum]. rewrite O.
      assert (G : Qcltb (1 - x) (offered (N := QcNum) d v + cumulative y) = true).
      { apply Qcltb_lt in O. apply Qcltb_lt. revert O Of. clear. qc. }
      rewrite G. cbn [andb negb]. replace (cumulative y + (1 - cumulative y))%Qc with 1%Qc by ring.
      replace (Qcltb (1 - x) 1) with true by (symmetry; now apply Qcltb_lt).
      split; [discriminate|]. split; [apply Qcle_refl|]. auto.
    + unfold settled_st, settled, stats_reset, switch, is_over. cbn [cumulative remainder v_ltb v_mul v_zero v_one QcNum]. rewrite O, !Qcmult_0_r.
      replace (Qcltb (1 - x) 0) with false by (symmetry; apply Qcltb_ge; exact T0).
      split; [apply Qcle_refl|]. split; [discriminate|]. split; [exact T0|reflexivity].
  - (* running: as without the change *)
    assert (R : remainder_ok (1 - x) y).
    { unfold remainder_ok, is_over. cbn [v_ltb QcNum]. rewrite O. split; [exact A|]. split; [exact B|apply C]. }
    pose proof (remainder_event _ _ HT T0 D y ev R) as (P1 & P2 & P3). unfold settled_st, settled. unfold is_over in P3. cbn [v_ltb QcNum] in P3.
    split; [exact P1|]. split; [exact P2|]. destruct (Qcltb (1 - x) (cumulative (stats_event (N := QcNum) (1 - x)%Qc d y ev))) eqn:O2.
    + destruct P3 as (Q1 & Q2 & Q3). split; [exact Q1|]. replace (1 - (1 - x))%Qc with x in Q2 by ring. split; [left; exact Q2|exact Q3].
    + apply Qcltb_ge in O2. split; [exact O2|exact P3].
Qed.
Definition all_settled (e : Qc) (s : st) : Prop := forall i p r n, element s i p r n -> settled_st e (epsilon s) (mkStats (N := QcNum) p r n).
Lemma all_settled_after e (s : st) c : wf s -> wf_pending s -> call_wf c -> (0 < epsilon s)%Qc -> (epsilon s <= 1)%Qc -> (0 <= depression_constant s)%Qc ->
  all_settled e s -> all_settled e (after s c).
Proof.
  intros W P Hc E0 E1 D Cm i p' r' n' El. pose proof (after_frame s c W P Hc) as Fr. rewrite (sf_eps _ _ Fr).
  destruct (after_element s c i p' r' n' W P Hc El) as (p & r & n & El0 & [(_ & -> & -> & ->)|[(h & v & _ & _ & _ & -> & -> & ->)|(_ & -> & -> & ->)]]).
  - exact (Cm _ _ _ _ El0).
  - exact (settled_event e _ _ (mkStats (N := QcNum) p r n) (Some v) E0 E1 D (Cm _ _ _ _ El0)).
  - pose proof (settled_event e _ _ (mkStats (N := QcNum) p r n) None E0 E1 D (Cm _ _ _ _ El0)) as X.
    pose proof (fun v => reset_kept s (mkStats (N := QcNum) p r n) v) as K. cbn [cumulative] in K. rewrite (K p), (K r), (K n). exact X.
Qed.
Lemma all_settled_run e cs : forall s : st, wf s -> wf_pending s -> Forall call_wf cs -> (0 < epsilon s)%Qc -> (epsilon s <= 1)%Qc ->
  (0 <= depression_constant s)%Qc -> all_settled e s -> all_settled e (run s cs).
Proof.
  induction cs as [|c cs IH]; intros s W P F E0 E1 D C; [exact C|]. inversion F; subst. rewrite run_cons.
  destruct (after_wf s c W P) as [W' P']; [assumption|]. assert (Fr : same_frame s (after s c)) by (now apply after_frame).
  apply IH; auto; try (rewrite (sf_eps _ _ Fr); assumption); [rewrite (sf_dep _ _ Fr); assumption|]. now apply all_settled_after.
Qed.
(** The rule holds after the change, for ever, if and only if no running element is above the new threshold. *)
Theorem C107_exactly_when (s0 : st) cs x :
  (0 < epsilon s0)%Qc -> (epsilon s0 <= 1)%Qc -> (0 <= depression_constant s0)%Qc ->
  wf s0 -> fresh s0 -> Forall call_wf cs -> (0 < x)%Qc -> (x <= 1)%Qc ->
  exists c, set_epsilon (N := QcNum) (mkEd (run s0 cs) "standard") x = Ok (mkEd c "standard") /\
    ((forall calls i p r n b, Forall call_wf calls -> element (run c calls) i p r n -> halted (run c calls) i = Some b -> settled (epsilon s0) x p r b) <->
     (forall i p r n, element (run s0 cs) i p r n -> halted (run s0 cs) i = Some false -> (p <= 1 - x)%Qc)).
Proof.
  intros E0 E1 D0 W F C X0 X1. pose proof (fresh_wf_pending _ F) as P. destruct (run_wf s0 cs W P C) as [W' P']. pose proof (run_frame s0 cs W P C) as Fr.
  exists (with_epsilon (run s0 cs) x). split; [now apply set_epsilon_accepted|]. split.
  - intros G i p r n El H. destruct (Qcltb (1 - x) p) eqn:O; [|now apply Qcltb_ge].
    assert (Hh : halted (with_epsilon (run s0 cs) x) i = Some true) by (rewrite (halted_p (with_epsilon (run s0 cs) x) i p r n El); cbn [epsilon with_epsilon]; now f_equal).
    destruct (G [] i p r n true (Forall_nil _) El Hh) as (E & _). subst p.
    rewrite (halted_p _ _ _ _ _ El), (sf_eps _ _ Fr) in H. injection H as H. apply Qcltb_ge in H. exfalso. revert H E0. clear. qc.
  - intros G calls i p r n b Fc El Hb. set (c := with_epsilon (run s0 cs) x) in *. assert (Wc : wf c) by (now apply with_epsilon_wf).
    assert (Dc : (0 <= depression_constant c)%Qc) by (unfold c; cbn [depression_constant with_epsilon]; now rewrite (sf_dep _ _ Fr)).
    assert (Cc : all_settled (epsilon s0) c).
    { intros j q t m Ej. change (epsilon c) with x. change (element (run s0 cs) j q t m) in Ej.
      destruct (C64_every_element_runs_the_scalar_program s0 cs W F C) as [S _]. specialize (S _ _ _ _ Ej). cbn [v_of_scl s_one_sub QcNum] in S.
      assert (HT : (1 - epsilon s0 < 1)%Qc) by (revert E0; clear; qc). assert (T0 : (0 <= 1 - epsilon s0)%Qc) by (revert E1; clear; qc).
      assert (Q : remainder_ok (1 - epsilon s0) (mkStats (N := QcNum) q t m)).
      { rewrite S. exact (remainder_run _ _ HT T0 D0 (stats_program j (returned s0 cs)) stats0 (remainder0 _ T0)). }
      destruct Q as (Q1 & Q2 & Q3). unfold is_over in Q3. cbn [cumulative remainder v_ltb QcNum] in *. unfold settled_st, settled. cbn [cumulative remainder].
      split; [exact Q1|]. split; [exact Q2|]. specialize (G j q t m Ej). rewrite (halted_p _ _ _ _ _ Ej), (sf_eps _ _ Fr) in G.
      destruct (Qcltb (1 - epsilon s0) q).
      - destruct Q3 as (R1 & R2 & R3). replace (Qcltb (1 - x) q) with true by (symmetry; apply Qcltb_lt; rewrite R1; revert X0; clear; qc).
        split; [exact R1|]. split; [right; revert R2; clear; qc|exact R3].
      - specialize (G eq_refl). replace (Qcltb (1 - x) q) with false by (symmetry; now apply Qcltb_ge). now split. }
    pose proof (all_settled_run (epsilon s0) calls c Wc P' Fc X0 X1 Dc Cc i p r n El) as (_ & _ & Q).
    pose proof (sf_eps _ _ (run_frame c calls Wc P' Fc)) as Ec. change (epsilon c) with x in Ec.
    rewrite (halted_p _ _ _ _ _ El), Ec in Hb. injection Hb as <-. rewrite Ec in Q. exact Q.
Qed.
Print Assumptions C107_exactly_when.

(** Epsilon is raised to 1/2 when element 0 has reached 3/4 and element 1 has reached 1/4. Element 0 then misses a quarter of its weights; the next
    iteration reports its cumulative probability as 1, with residual 0. *)
Definition before1 : list (call QcNum) := [CCache "x" (u_x 4 4 4 4); CIter (hp (q 3 4) (q 1 4))].
Definition later1 : list (call QcNum) := [CCache "x" (u_x 4 4 4 4); CIter (hp (q 1 1) (q 1 1))].
Example C107_case : let s := run ctl1 before1 in let c := run (with_epsilon s (q 1 2)) later1 in
  wf ctl1 /\ fresh ctl1 /\ Forall call_wf before1 /\ Forall call_wf later1 /\ Forall (fun c => c <> CReset) later1 /\
  Qcltb 0 (epsilon ctl1) = true /\ Qcltb (epsilon ctl1) (q 1 2) = true /\
  halted s 0 = Some false /\ halted s 1 = Some false /\
  map this (a_data (probabilities s)) = [3 # 4; 1 # 4]%Q /\
  map this (a_data (probabilities c)) = [1; 1]%Q /\ map this (a_data (residuals c)) = [0; 3 # 4]%Q /\ map this (a_data (iterations c)) = [1; 2]%Q.
Proof.
  destruct ctl1_ok as [W F]. split; [exact W|]. split; [exact F|]. split; [repeat constructor|]. split; [repeat constructor|].
  split; [repeat constructor; discriminate|]. repeat split; vm_compute; reflexivity.
Qed.
(** Raised to 1/5, with element 0 at 3/4 and element 1 at 1/4: no running element is above the new threshold. *)
Example C107_case_raised_safely : let s := run ctl1 before1 in
  Qcltb (epsilon ctl1) (q 1 5) = true /\ forallb (fun p => negb (Qcltb (1 - q 1 5) p)) (a_data (probabilities s)) = true /\
  halted (with_epsilon s (q 1 5)) 0 = Some false /\ map this (a_data (residuals (run (with_epsilon s (q 1 5)) later1))) = [1 # 4; 3 # 4]%Q.
Proof. repeat split; vm_compute; reflexivity. Qed.
