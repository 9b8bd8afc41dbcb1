(** * Properties: the ponder cost, iterations plus residual (C103). Vocabulary: ElementSpec.v, History.v. *)
From Coq Require Import QArith Qcanon Lia.
From Verif Require Import Base PyTree Tensor Num States Controller Wf Spec History ElementSpec.
From Verif Require Import IterateFacts BaseFacts TensorFacts PyTreeFacts QcFacts Samples ControllerFacts HistoryFacts GravesFacts ExactFacts SpecFacts PaceFacts StableFacts PropsController PropsMono PropsStable.
Close Scope Qc_scope. Close Scope Q_scope. Open Scope string_scope. Open Scope list_scope. Open Scope nat_scope.
Local Notation st := (state QcNum).

Lemma halting_step_earlier (T1 T2 : Qc) : (T2 <= T1)%Qc -> forall hs1 hs2 c1 c2 n1, Forall2 Qcle hs1 hs2 -> (c1 <= c2)%Qc ->
  halting_step T1 c1 hs1 = Some n1 ->
  exists n2, halting_step T2 c2 hs2 = Some n2 /\ n2 <= n1 /\ (c1 + total (firstn n2 hs1) <= c2 + total (firstn n2 hs2))%Qc.
Proof.
  intros T hs1 hs2 c1 c2 n1 F. revert c1 c2 n1. induction F as [|h1 h2 hs1 hs2 H _ IH]; intros c1 c2 n1 C; cbn [halting_step]; [discriminate|].
  assert (Sm : (c1 + h1 <= c2 + h2)%Qc) by (revert C H; clear; qc).
  destruct (Qclt_le_dec T2 (c2 + h2)) as [X2|X2].
  - intros _. exists 0. split; [reflexivity|]. split; [lia|]. cbn [firstn total]. revert C. clear. qc.
  - destruct (Qclt_le_dec T1 (c1 + h1)) as [X1|X1].
    + exfalso. revert X1 X2 Sm T. clear. intros. apply (Qclt_not_le _ _ X1). eapply Qcle_trans; [exact Sm|]. eapply Qcle_trans; eassumption.
    + destruct (halting_step T1 (c1 + h1) hs1) as [m|] eqn:E; [|discriminate]. intros [= <-].
      destruct (IH _ _ _ Sm E) as (n2 & E2 & L & K). exists (S n2). rewrite E2. split; [reflexivity|]. split; [lia|].
      cbn [firstn total]. revert K. generalize (total (firstn n2 hs1)) (total (firstn n2 hs2)). clear. qc.
Qed.

(** Iterations plus residual of a halted element, [n + r], lie between [n + epsilon] and [n + 1]. An element with
    halting probabilities at least as large in every iteration since its reset also halts, and its cost is not larger;
    with the same number of iterations its residual is not larger, otherwise it is a full iteration shorter. *)
Theorem C103_larger_probabilities_cost_no_more (s1 s2 : st) cs1 cs2 i1 i2 (p1 r1 n1 p2 r2 n2 : Qc) :
  (0 < epsilon s1)%Qc -> (epsilon s1 <= epsilon s2)%Qc -> (epsilon s2 <= 1)%Qc ->
  (0 <= depression_constant s1)%Qc -> (0 <= depression_constant s2)%Qc ->
  wf s1 -> fresh s1 -> Forall call_wf cs1 -> wf s2 -> fresh s2 -> Forall call_wf cs2 ->
  Forall2 Qcle (element_hs s1 i1 cs1) (element_hs s2 i2 cs2) ->
  element (run s1 cs1) i1 p1 r1 n1 -> element (run s2 cs2) i2 p2 r2 n2 ->
  halted (run s1 cs1) i1 = Some true ->
  halted (run s2 cs2) i2 = Some true /\
  (n2 + r2 <= n1 + r1)%Qc /\ (n2 = n1 -> r2 <= r1)%Qc /\ (n2 <> n1 -> n2 + 1 <= n1)%Qc /\
  (n1 + epsilon s1 <= n1 + r1 /\ n1 + r1 <= n1 + 1)%Qc.
Proof.
  intros E0 E12 E1 D1 D2 W1 F1 C1 W2 F2 C2 Le El1 El2 H1.
  assert (E2 : (0 < epsilon s2)%Qc) by (eapply Qclt_le_trans; eassumption).
  assert (E1' : (epsilon s1 <= 1)%Qc) by (eapply Qcle_trans; eassumption).
  destruct (C05_controller_computes_graves_act s1 cs1 E0 E1' D1 W1 F1 C1 i1) as (_ & R1 & I1 & X1 & _).
  destruct (C05_controller_computes_graves_act s2 cs2 E2 E1 D2 W2 F2 C2 i2) as (_ & R2 & I2 & X2 & _).
  pose proof (C69_residual_at_least_epsilon s1 cs1 i1 p1 r1 n1 E0 E1' D1 W1 F1 C1 El1) as [B1 _]. destruct (B1 H1) as (_ & B1a & B1b).
  destruct El1 as (P1 & Er1 & En1). pose proof El2 as (P2 & Er2 & En2).
  specialize (R1 _ Er1). specialize (I1 _ En1). specialize (X1 _ H1). specialize (R2 _ Er2). specialize (I2 _ En2).
  unfold act_residual, act_iterations, act_halted in *.
  destruct (halting_step (1 - epsilon s1)%Qc 0%Qc (element_hs s1 i1 cs1)) as [m1|] eqn:N1; [clear X1|discriminate].
  destruct (halting_step_earlier (1 - epsilon s1)%Qc (1 - epsilon s2)%Qc ltac:(revert E12; clear; qc) _ _ 0%Qc 0%Qc m1 Le (Qcle_refl _) N1) as (m2 & N2 & L & K).
  rewrite N2 in *.
  assert (H2 : halted (run s2 cs2) i2 = Some true).
  { destruct (C05_every_element_is_covered s2 cs2 W2 F2 C2 i2) as (_ & _ & _ & (b & Eb)).
    { destruct (run_wf s2 cs2 W2 (fresh_wf_pending _ F2) C2) as [W' _]. pose proof (run_frame s2 cs2 W2 (fresh_wf_pending _ F2) C2) as Fr.
      rewrite <- (frame_batch _ _ Fr), <- (wf_batch_len _ W'). apply nth_error_Some. congruence. }
    rewrite Eb, (X2 _ Eb). reflexivity. }
  pose proof (C69_residual_at_least_epsilon s2 cs2 i2 p2 r2 n2 E2 E1 D2 W2 F2 C2 El2) as [B2 _]. destruct (B2 H2) as (_ & B2a & B2b).
  assert (Same : m2 = m1 -> (r2 <= r1)%Qc).
  { intros ->. rewrite R1, R2. revert K. generalize (total (firstn m1 (element_hs s1 i1 cs1))) (total (firstn m1 (element_hs s2 i2 cs2))). clear. qc. }
  assert (Less : m2 <> m1 -> (n2 + 1 <= n1)%Qc).
  { intros Ne. rewrite I1, I2, <- of_nat_S. apply of_nat_le. lia. }
  split; [exact H2|]. split; [|split; [|split; [|split]]].
  - destruct (Nat.eq_dec m2 m1) as [Q|Q].
    + specialize (Same Q). subst m2. rewrite I1, I2. revert Same. generalize (Qc_of_nat (S m1)). clear. qc.
    + specialize (Less Q). revert Less B2b B1a E0. clear. generalize (epsilon s1). qc.
  - intros Q. apply Same. rewrite I1, I2 in Q. apply of_nat_inj in Q. lia.
  - intros Q. apply Less. intros ->. apply Q. congruence.
  - revert B1a. clear. generalize (epsilon s1). qc.
  - revert B1b. clear. qc.
Qed.
Print Assumptions C103_larger_probabilities_cost_no_more.
(** Element 0 of the first controller halts in the third iteration with residual 1/5, of the second with 1/10, and
    with larger probabilities in the second iteration, at the cost of 2 1/2 instead of 3 1/5. For elements that are
    still running there is no such comparison: the cost goes up when an element halts (2 to 2 1/2). *)
Example C103_case :
  let a := jump_calls (q 3 10) in let b := jump_calls (q 4 10) in let c := jump_calls (q 6 10) in
  Forall2 Qcle (element_hs ctl1 0 a) (element_hs ctl1 0 b) /\ Forall2 Qcle (element_hs ctl1 0 b) (element_hs ctl1 0 c) /\
  halted (run ctl1 a) 0 = Some true /\
  map (fun cs => option_map this ((iterations (run ctl1 cs)).[0] : option Qc)) [a; b; c] = [Some 3; Some 3; Some 2]%Q /\
  map (fun cs => option_map this ((residuals (run ctl1 cs)).[0] : option Qc)) [a; b; c] = [Some (1 # 5); Some (1 # 10); Some (1 # 2)]%Q /\
  map (fun cs => option_map this ((iterations (run ctl1 (firstn 4 cs))).[0] : option Qc)) [a; c] = [Some 2; Some 2]%Q /\
  map (fun cs => option_map this ((residuals (run ctl1 (firstn 4 cs))).[0] : option Qc)) [a; c] = [Some 0; Some (1 # 2)]%Q.
Proof.
  split; [repeat constructor; discriminate|]. split; [repeat constructor; discriminate|].
  do 4 (split; [vm_compute; reflexivity|]). vm_compute. reflexivity.
Qed.
