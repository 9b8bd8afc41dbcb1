(** * C65, C69: monotone halting, and the size of the residual (exact arithmetic) *)
From Coq Require Import QArith Qcanon.
From Verif Require Import Base PyTree Tensor Num Utils States Controller Builder Wf Spec History ElementSpec ScalarSpec BuilderSpec.
From Verif Require Import BaseFacts QcFacts ControllerFacts IterateFacts HistoryFacts AgreeFacts GravesFacts ExactFacts ExactFacts2
  ScalarFacts ScriptFacts MonoFacts ElementFacts Samples PropsController PropsScalar.
Close Scope Qc_scope. Close Scope Q_scope. Open Scope string_scope. Open Scope list_scope. Open Scope nat_scope.

(** ** C65: two controllers, of any two batch shapes; element [i1] of the first never gets a larger
    halting value than element [i2] of the second. *)
Theorem C65_larger_probabilities_halt_no_later (s1 s2 : st) cs1 cs2 i1 i2 p1 r1 n1 p2 r2 n2 :
  wf s1 -> fresh s1 -> Forall call_wf cs1 -> Forall (fun c => c <> CReset) cs1 ->
  wf s2 -> fresh s2 -> Forall call_wf cs2 -> Forall (fun c => c <> CReset) cs2 ->
  (0 <= epsilon s1)%Qc -> (epsilon s1 <= epsilon s2)%Qc ->
  (0 <= depression_constant s1)%Qc -> (depression_constant s1 <= depression_constant s2)%Qc ->
  Forall2 Qcle (values_of i1 (returned s1 cs1)) (values_of i2 (returned s2 cs2)) ->
  element (run s1 cs1) i1 p1 r1 n1 -> element (run s2 cs2) i2 p2 r2 n2 ->
  (p1 <= p2)%Qc /\ (n2 <= n1)%Qc /\ (halted (run s1 cs1) i1 = Some true -> halted (run s2 cs2) i2 = Some true).
Proof.
  intros W1 F1 C1 R1 W2 F2 C2 R2 E0 E D0 D V El1 El2.
  destruct (C64_every_element_runs_the_scalar_program s1 cs1 W1 F1 C1) as [S1 _].
  destruct (C64_every_element_runs_the_scalar_program s2 cs2 W2 F2 C2) as [S2 _].
  specialize (S1 _ _ _ _ El1). specialize (S2 _ _ _ _ El2).
  rewrite (stats_program_values i1 _ (returned_all _ s1 cs1 R1)) in S1.
  rewrite (stats_program_values i2 _ (returned_all _ s2 cs2 R2)) in S2.
  assert (HT : (1 - epsilon s2 <= 1 - epsilon s1)%Qc) by (revert E; qc).
  assert (H1 : (1 - epsilon s1 <= 1)%Qc) by (revert E0; qc).
  assert (B : behind (mkStats (N := QcNum) p1 r1 n1) (mkStats (N := QcNum) p2 r2 n2)).
  { rewrite S1, S2. exact (behind_run _ _ _ _ HT H1 D0 D _ _ _ _ behind0 V). }
  pose proof B as (A & _ & N). cbn [cumulative steps] in A, N. split; [exact A|]. split; [exact N|].
  intros H. pose proof (behind_over _ _ HT _ _ B) as O. unfold is_over in O. cbn [cumulative] in O.
  destruct El1 as (Hp1 & _). destruct El2 as (Hp2 & _).
  unfold halted in *. rewrite (halted_get _ _ _ Hp1) in H. rewrite (halted_get _ _ _ Hp2). f_equal.
  apply Some_inj in H. unfold halted_at, threshold in *.
  rewrite (sf_eps _ _ (run_frame s1 cs1 W1 (fresh_wf_pending _ F1) C1)) in H.
  rewrite (sf_eps _ _ (run_frame s2 cs2 W2 (fresh_wf_pending _ F2) C2)). exact (O H).
Qed.
Print Assumptions C65_larger_probabilities_halt_no_later.
(** The same controller, twice; in the second history element 0 gets more, and halts one step earlier. *)
Definition slow1 : list (call QcNum) :=
  [CCache "x" (u_x 1 1 1 1); CIter (hp (q 1 2) (q 0 1)); CCache "x" (u_x 1 1 1 1); CIter (hp (q 1 3) (q 0 1));
   CCache "x" (u_x 1 1 1 1); CIter (hp (q 1 3) (q 0 1))].
Definition fast1 : list (call QcNum) :=
  [CIter (hp (q 1 1) (q 1 1)); CCache "x" (u_x 1 1 1 1); CIter (hp (q 1 2) (q 0 1)); CCache "x" (u_x 1 1 1 1);
   CIter (hp (q 2 3) (q 0 1)); CCache "x" (u_x 1 1 1 1); CIter (hp (q 1 3) (q 0 1))].
Example C65_case : wf ctl1 /\ fresh ctl1 /\ Forall call_wf slow1 /\ Forall (fun c => c <> CReset) slow1 /\
  Forall call_wf fast1 /\ Forall (fun c => c <> CReset) fast1 /\
  Forall2 Qcle (values_of 0 (returned ctl1 slow1)) (values_of 0 (returned ctl1 fast1)) /\
  map this (a_data (iterations (run ctl1 slow1))) = [3; 3]%Q /\ map this (a_data (iterations (run ctl1 fast1))) = [2; 3]%Q.
Proof.
  destruct ctl1_ok as [W F]. split; [exact W|]. split; [exact F|].
  split; [repeat constructor|]. split; [repeat constructor; discriminate|].
  split; [repeat constructor|]. split; [repeat constructor; discriminate|].
  split; [|split; vm].
  assert (A : values_of 0 (returned ctl1 slow1) = [q 1 2; q 1 3; q 1 3]) by (vm_compute; reflexivity).
  assert (B : values_of 0 (returned ctl1 fast1) = [q 1 2; q 2 3; q 1 3]) by (vm_compute; reflexivity).
  rewrite A, B. repeat constructor; discriminate.
Qed.

(** ** C69: after any history, with resets *)
Theorem C69_residual_at_least_epsilon (s0 : st) cs i p r n :
  (0 < epsilon s0)%Qc -> (epsilon s0 <= 1)%Qc -> (0 <= depression_constant s0)%Qc ->
  wf s0 -> fresh s0 -> Forall call_wf cs -> element (run s0 cs) i p r n ->
  (halted (run s0 cs) i = Some true -> p = 1%Qc /\ (epsilon s0 <= r)%Qc /\ (r <= 1)%Qc) /\
  (halted (run s0 cs) i = Some false -> r = 0%Qc).
Proof.
  intros E0 E1 D0 W F C El.
  destruct (C64_every_element_runs_the_scalar_program s0 cs W F C) as [S _]. specialize (S _ _ _ _ El).
  cbn [v_of_scl s_one_sub QcNum] in S.
  assert (HT : (1 - epsilon s0 < 1)%Qc) by (revert E0; qc). assert (T0 : (0 <= 1 - epsilon s0)%Qc) by (revert E1; qc).
  assert (Q : remainder_ok (1 - epsilon s0) (mkStats (N := QcNum) p r n)).
  { rewrite S. exact (remainder_run _ _ HT T0 D0 (stats_program i (returned s0 cs)) stats0 (remainder0 _ T0)). }
  destruct Q as (_ & _ & Q). unfold is_over in Q. cbn [cumulative remainder] in Q.
  assert (Hh : halted (run s0 cs) i = Some (Qcltb (1 - epsilon s0) p)).
  { unfold halted. destruct El as (Hp & _). rewrite (halted_get _ _ _ Hp). unfold halted_at, threshold.
    rewrite (sf_eps _ _ (run_frame s0 cs W (fresh_wf_pending _ F) C)). reflexivity. }
  rewrite Hh. cbn [v_ltb QcNum] in Q. destruct (Qcltb (1 - epsilon s0) p); split; intros X; try discriminate; [|exact Q].
  destruct Q as (Q1 & Q2 & Q3). split; [exact Q1|]. split; [revert Q2; qc|exact Q3].
Qed.
Print Assumptions C69_residual_at_least_epsilon.
Example C69_case : let s := run ctl1 fast1 in
  wf ctl1 /\ fresh ctl1 /\ Forall call_wf fast1 /\ halted s 0 = Some true /\ halted s 1 = Some false /\
  map this (a_data (residuals s)) = [1 # 2; 0]%Q.
Proof.
  destruct ctl1_ok as [W F]. split; [exact W|]. split; [exact F|]. split; [repeat constructor|]. repeat split; vm.
Qed.
