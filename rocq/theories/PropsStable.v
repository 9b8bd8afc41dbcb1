(** * Properties: small changes of the inputs make small changes of the results (C102). Vocabulary: StableSpec.v. *)
From Coq Require Import QArith Qcanon Lia.
From Verif Require Import Base PyTree Tensor Num States Controller Wf Spec History ElementSpec StableSpec.
From Verif Require Import BaseFacts TensorFacts PyTreeFacts QcFacts Samples ControllerFacts HistoryFacts GravesFacts ExactFacts SpecFacts PaceFacts StableFacts PropsController.
Close Scope Qc_scope. Close Scope Q_scope. Open Scope string_scope. Open Scope list_scope. Open Scope nat_scope.
Local Notation st := (state QcNum).

Lemma clamp_pos v : (0 <= clamp v)%Qc.
Proof. apply clamp_range. Qed.
Lemma of_nat_inj n m : Qc_of_nat n = Qc_of_nat m -> n = m.
Proof.
  assert (Lt : forall a b, a < b -> Qc_of_nat a <> Qc_of_nat b).
  { intros a b H E. pose proof (of_nat_le (S a) b H) as K. rewrite of_nat_S, <- E in K. revert K. generalize (Qc_of_nat a). clear. intros x K.
    assert (X : (1 <= 0)%Qc) by (revert K; qc). vm_compute in X. now apply X. }
  intros E. destruct (Nat.lt_trichotomy n m) as [H|[H|H]]; [exfalso; now apply (Lt n m H)|exact H|exfalso; now apply (Lt m n H)].
Qed.
Lemma halted_bound (s0 : st) cs : wf s0 -> fresh s0 -> Forall call_wf cs -> forall i b, halted (run s0 cs) i = Some b -> i < size (batch_shape s0).
Proof.
  intros W F C i b H. destruct (run_wf s0 cs W (fresh_wf_pending _ F) C) as [W' _]. pose proof (run_frame s0 cs W (fresh_wf_pending _ F) C) as Fr.
  rewrite <- (frame_batch _ _ Fr), <- (halted_length _ W'). apply nth_error_Some. unfold halted in H. congruence.
Qed.

(** Two computations (elements [i1], [i2] of two controllers, or of one), with as many iterations since their last
    reset. Entry [j1] resp. [j2] of leaf [l] of accumulator [k] belongs to them. The updates lie in [lo, hi] and
    differ by at most [du] in each iteration, the defaults by at most [dd]. When both have halted, the results
    differ by at most [dd + du + (dh + epsilon) * (hi - lo)], [dh] being the total difference of the effective
    halting probabilities, and without [epsilon] if they halted in the same iteration. *)
Theorem C102_results_are_stable (s1 s2 : st) (cs1 cs2 : list (call QcNum)) i1 i2 :
  (0 < epsilon s1)%Qc -> (epsilon s1 <= 1)%Qc -> epsilon s2 = epsilon s1 ->
  (0 <= depression_constant s1)%Qc -> (0 <= depression_constant s2)%Qc ->
  wf s1 -> fresh s1 -> Forall call_wf cs1 -> wf s2 -> fresh s2 -> Forall call_wf cs2 ->
  let e1 := run s1 cs1 in let e2 := run s2 cs2 in
  halted e1 i1 = Some true -> halted e2 i2 = Some true ->
  let dh := total_gap (element_hs s1 i1 cs1) (element_hs s2 i2 cs2) in
  forall k l t1 d1 a1 dl1 R1 j1 (av1 dv1 : Qc) t2 d2 a2 dl2 R2 j2 (av2 dv2 : Qc),
    dget k (accumulators e1) = Some t1 -> dget k (defaults s1) = Some d1 ->
    nth_error (leaves t1) l = Some a1 -> nth_error (leaves d1) l = Some dl1 ->
    a_shape a1 = batch_shape s1 ++ R1 -> j1 / size R1 = i1 -> a1.[j1] = Some av1 -> dl1.[j1] = Some dv1 ->
    dget k (accumulators e2) = Some t2 -> dget k (defaults s2) = Some d2 ->
    nth_error (leaves t2) l = Some a2 -> nth_error (leaves d2) l = Some dl2 ->
    a_shape a2 = batch_shape s2 ++ R2 -> j2 / size R2 = i2 -> a2.[j2] = Some av2 -> dl2.[j2] = Some dv2 ->
    forall lo hi du dd : Qc,
    Forall2 (fun x1 x2 => forall u1 u2 : Qc, update_at (N := QcNum) k l j1 (snd x1) = Some u1 -> update_at (N := QcNum) k l j2 (snd x2) = Some u2 ->
        (lo <= u1 /\ u1 <= hi /\ lo <= u2 /\ u2 <= hi /\ gap u1 u2 <= du)%Qc)
      (past (element_log s1 i1 cs1)) (past (element_log s2 i2 cs2)) ->
    (gap dv1 dv2 <= dd)%Qc ->
    (gap av1 av2 <= dd + du + (dh + epsilon s1) * (hi - lo))%Qc /\
    ((iterations e1).[i1] = (iterations e2).[i2] -> (gap av1 av2 <= dd + du + dh * (hi - lo))%Qc).
Proof.
  intros E0 E1 EE D1 D2 W1 F1 C1 W2 F2 C2 e1 e2 H1 H2 dh k l t1 d1 a1 dl1 R1 j1 av1 dv1 t2 d2 a2 dl2 R2 j2 av2 dv2
    A1 A2 A3 A4 A5 A6 A7 A8 B1 B2 B3 B4 B5 B6 B7 B8 lo hi du dd Us Ds.
  assert (E0' : (0 < epsilon s2)%Qc) by now rewrite EE. assert (E1' : (epsilon s2 <= 1)%Qc) by now rewrite EE.
  destruct (C05_controller_computes_graves_act s1 cs1 E0 E1 D1 W1 F1 C1 i1) as (_ & _ & I1 & X1 & V1).
  destruct (C05_controller_computes_graves_act s2 cs2 E0' E1' D2 W2 F2 C2 i2) as (_ & _ & I2 & X2 & V2).
  destruct (V1 k t1 d1 l a1 dl1 R1 j1 av1 dv1 A1 A2 A3 A4 A5 A6 A7 A8) as (us1 & M1 & ->).
  destruct (V2 k t2 d2 l a2 dl2 R2 j2 av2 dv2 B1 B2 B3 B4 B5 B6 B7 B8) as (us2 & M2 & ->). rewrite EE in *.
  specialize (X1 _ H1). specialize (X2 _ H2). unfold act_halted in X1, X2.
  destruct (halting_step (1 - epsilon s1)%Qc 0%Qc (element_hs s1 i1 cs1)) as [n1|] eqn:N1; [clear X1|discriminate].
  destruct (halting_step (1 - epsilon s1)%Qc 0%Qc (element_hs s2 i2 cs2)) as [n2|] eqn:N2; [clear X2|discriminate].
  assert (L1 : length us1 = length (element_hs s1 i1 cs1)).
  { apply map_some_length in M1. unfold element_hs, effective. rewrite !map_length in *. now symmetry. }
  assert (L2 : length us2 = length (element_hs s2 i2 cs2)).
  { apply map_some_length in M2. unfold element_hs, effective. rewrite !map_length in *. now symmetry. }
  assert (Eff : forall (s : st) vs, (0 <= depression_constant s)%Qc -> Forall (fun h => (0 <= h)%Qc) (effective s vs)).
  { intros s vs D. unfold effective. apply Forall_forall. intros x Hx. apply in_map_iff in Hx as (v & <- & _). apply mul_pos; [exact D|].
    apply clamp_pos. }
  assert (Uw : Forall (within lo hi) us1 /\ Forall (within lo hi) us2 /\ Forall2 (fun u1 u2 => (gap u1 u2 <= du)%Qc) us1 us2).
  { clear -Us M1 M2. revert us1 us2 M1 M2. induction Us as [|x1 x2 l1 l2 Hx _ IH]; intros [|u1 us1] [|u2 us2] M1 M2; cbn in M1, M2; try discriminate.
    - repeat constructor.
    - apply (f_equal (@hd_error _)) in M1 as Y1. apply (f_equal (@hd_error _)) in M2 as Y2. cbn in Y1, Y2.
      apply Some_inj in Y1. apply Some_inj in Y2. apply (f_equal (@tl _)) in M1. apply (f_equal (@tl _)) in M2. cbn in M1, M2.
      destruct (Hx u1 u2 Y1 Y2) as (q1 & q2 & q3 & q4 & q5). destruct (IH _ _ M1 M2) as (U1 & U2 & U3).
      repeat split; constructor; auto; split; assumption. }
  destruct Uw as (U1 & U2 & U3).
  assert (Ne : us1 <> []).
  { intros ->. cbn in L1. destruct (element_hs s1 i1 cs1); [discriminate N1|discriminate L1]. }
  assert (LH : (lo <= hi)%Qc /\ (0 <= du)%Qc).
  { destruct us1 as [|u us1]; [congruence|]. inversion U1 as [|? ? [p1 p2]]; subst. inversion U3 as [|? v ? ? p3]; subst.
    pose proof (gap_le u v) as (_ & _ & p4). split; [eapply Qcle_trans; eassumption|eapply Qcle_trans; eassumption]. }
  destruct LH as [LH Du].
  pose proof (stable_halted (epsilon s1) lo hi du _ _ us1 us2 n1 n2 E0 E1 LH Du L1 L2 (Eff s1 _ D1) (Eff s2 _ D2) U1 U2 U3 N1 N2) as S.
  fold dh in S.
  assert (G : forall b x y : Qc, (gap x y <= b)%Qc -> (gap (dv1 + x) (dv2 + y) <= dd + b)%Qc).
  { intros b x y Hb. pose proof (gap_le x y) as (p1 & p2 & _). pose proof (gap_le dv1 dv2) as (p3 & p4 & _).
    apply gap_least; revert Hb Ds p1 p2 p3 p4; clear; gz. }
  apply G in S. split.
  - eapply Qcle_trans; [exact S|]. destruct (Nat.eqb n1 n2).
    + assert (Z : (0 <= epsilon s1 * (hi - lo))%Qc) by (apply mul_pos; [revert E0; clear; qc|revert LH; clear; qc]).
      revert Z. generalize dh (epsilon s1). clear. qc.
    + generalize dh (epsilon s1). clear. qc.
  - intros It. assert (Q : n1 = n2).
    { destruct (C05_every_element_is_covered s1 cs1 W1 F1 C1 i1) as (_ & _ & (m1 & Q1) & _). { exact (halted_bound s1 cs1 W1 F1 C1 i1 _ H1). }
      destruct (C05_every_element_is_covered s2 cs2 W2 F2 C2 i2) as (_ & _ & (m2 & Q2) & _). { exact (halted_bound s2 cs2 W2 F2 C2 i2 _ H2). }
      fold e1 in Q1. fold e2 in Q2. pose proof (I1 _ Q1) as Y1. pose proof (I2 _ Q2) as Y2. rewrite Q1, Q2 in It. apply Some_inj in It.
      unfold act_iterations in Y1, Y2. rewrite N1 in Y1. rewrite N2 in Y2. rewrite Y1, Y2 in It. apply of_nat_inj in It. now injection It. }
    subst n2. rewrite Nat.eqb_refl in S. eapply Qcle_trans; [exact S|]. generalize dh. clear. qc.
Qed.
Print Assumptions C102_results_are_stable.

(** While both are running, with updates between [- m] and [m]. *)
Theorem C102_running_results_are_stable (s1 s2 : st) (cs1 cs2 : list (call QcNum)) i1 i2 :
  (0 < epsilon s1)%Qc -> (epsilon s1 <= 1)%Qc -> (0 < epsilon s2)%Qc -> (epsilon s2 <= 1)%Qc ->
  (0 <= depression_constant s1)%Qc -> (0 <= depression_constant s2)%Qc ->
  wf s1 -> fresh s1 -> Forall call_wf cs1 -> wf s2 -> fresh s2 -> Forall call_wf cs2 ->
  let e1 := run s1 cs1 in let e2 := run s2 cs2 in
  halted e1 i1 = Some false -> halted e2 i2 = Some false ->
  let dh := total_gap (element_hs s1 i1 cs1) (element_hs s2 i2 cs2) in
  forall k l t1 d1 a1 dl1 R1 j1 (av1 dv1 : Qc) t2 d2 a2 dl2 R2 j2 (av2 dv2 : Qc),
    dget k (accumulators e1) = Some t1 -> dget k (defaults s1) = Some d1 ->
    nth_error (leaves t1) l = Some a1 -> nth_error (leaves d1) l = Some dl1 ->
    a_shape a1 = batch_shape s1 ++ R1 -> j1 / size R1 = i1 -> a1.[j1] = Some av1 -> dl1.[j1] = Some dv1 ->
    dget k (accumulators e2) = Some t2 -> dget k (defaults s2) = Some d2 ->
    nth_error (leaves t2) l = Some a2 -> nth_error (leaves d2) l = Some dl2 ->
    a_shape a2 = batch_shape s2 ++ R2 -> j2 / size R2 = i2 -> a2.[j2] = Some av2 -> dl2.[j2] = Some dv2 ->
    forall m du dd : Qc, (0 <= m)%Qc -> (0 <= du)%Qc ->
    Forall2 (fun x1 x2 => forall u1 u2 : Qc, update_at (N := QcNum) k l j1 (snd x1) = Some u1 -> update_at (N := QcNum) k l j2 (snd x2) = Some u2 ->
        (- m <= u1 /\ u1 <= m /\ - m <= u2 /\ u2 <= m /\ gap u1 u2 <= du)%Qc)
      (past (element_log s1 i1 cs1)) (past (element_log s2 i2 cs2)) ->
    (gap dv1 dv2 <= dd)%Qc ->
    (gap av1 av2 <= dd + du + dh * m)%Qc.
Proof.
  intros E1 E1' E2 E2' D1 D2 W1 F1 C1 W2 F2 C2 e1 e2 H1 H2 dh k l t1 d1 a1 dl1 R1 j1 av1 dv1 t2 d2 a2 dl2 R2 j2 av2 dv2
    A1 A2 A3 A4 A5 A6 A7 A8 B1 B2 B3 B4 B5 B6 B7 B8 m du dd Hm Du Us Ds.
  destruct (C05_controller_computes_graves_act s1 cs1 E1 E1' D1 W1 F1 C1 i1) as (_ & _ & _ & X1 & V1).
  destruct (C05_controller_computes_graves_act s2 cs2 E2 E2' D2 W2 F2 C2 i2) as (_ & _ & _ & X2 & V2).
  destruct (V1 k t1 d1 l a1 dl1 R1 j1 av1 dv1 A1 A2 A3 A4 A5 A6 A7 A8) as (us1 & M1 & ->).
  destruct (V2 k t2 d2 l a2 dl2 R2 j2 av2 dv2 B1 B2 B3 B4 B5 B6 B7 B8) as (us2 & M2 & ->).
  specialize (X1 _ H1). specialize (X2 _ H2). unfold act_halted in X1, X2. unfold act_weights.
  destruct (halting_step (1 - epsilon s1)%Qc 0%Qc (element_hs s1 i1 cs1)) as [n1|] eqn:N1; [discriminate|clear X1].
  destruct (halting_step (1 - epsilon s2)%Qc 0%Qc (element_hs s2 i2 cs2)) as [n2|] eqn:N2; [discriminate|clear X2].
  assert (L1 : length us1 = length (element_hs s1 i1 cs1)).
  { apply map_some_length in M1. unfold element_hs, effective. rewrite !map_length in *. now symmetry. }
  assert (L2 : length us2 = length (element_hs s2 i2 cs2)).
  { apply map_some_length in M2. unfold element_hs, effective. rewrite !map_length in *. now symmetry. }
  assert (Eff : forall (s : st) vs, (0 <= depression_constant s)%Qc -> Forall (fun h => (0 <= h)%Qc) (effective s vs)).
  { intros s vs D. unfold effective. apply Forall_forall. intros x Hx. apply in_map_iff in Hx as (v & <- & _). apply mul_pos; [exact D|].
    apply clamp_pos. }
  assert (Uw : Forall (within (- m) m) us1 /\ Forall (within (- m) m) us2 /\ Forall2 (fun u1 u2 => (gap u1 u2 <= du)%Qc) us1 us2).
  { clear -Us M1 M2. revert us1 us2 M1 M2. induction Us as [|x1 x2 l1 l2 Hx _ IH]; intros [|u1 us1] [|u2 us2] M1 M2; cbn in M1, M2; try discriminate.
    - repeat constructor.
    - apply (f_equal (@hd_error _)) in M1 as Y1. apply (f_equal (@hd_error _)) in M2 as Y2. cbn in Y1, Y2.
      apply Some_inj in Y1. apply Some_inj in Y2. apply (f_equal (@tl _)) in M1. apply (f_equal (@tl _)) in M2. cbn in M1, M2.
      destruct (Hx u1 u2 Y1 Y2) as (q1 & q2 & q3 & q4 & q5). destruct (IH _ _ M1 M2) as (U1 & U2 & U3).
      repeat split; constructor; auto; split; assumption. }
  destruct Uw as (U1 & U2 & U3). pose proof (Forall2_len _ _ _ U3) as LU.
  assert (U3' : Forall2 (fun u2 u1 => (gap u2 u1 <= du)%Qc) us2 us1).
  { apply Forall2_swap in U3. clear -U3. induction U3; constructor; auto. now rewrite gap_sym. }
  assert (T1 : (total (element_hs s1 i1 cs1) <= 1)%Qc).
  { apply not_halted_total in N1; [|revert E1'; clear; qc]. revert N1 E1. clear. generalize (total (element_hs s1 i1 cs1)) (epsilon s1). qc. }
  assert (T2 : (total (element_hs s2 i2 cs2) <= 1)%Qc).
  { apply not_halted_total in N2; [|revert E2'; clear; qc]. revert N2 E2. clear. generalize (total (element_hs s2 i2 cs2)) (epsilon s2). qc. }
  pose proof (dot_close m du Hm Du (element_hs s1 i1 cs1) (element_hs s2 i2 cs2) us1 us2 L1 ltac:(congruence) (Eff s1 _ D1) U2 U3) as S1.
  pose proof (dot_close m du Hm Du (element_hs s2 i2 cs2) (element_hs s1 i1 cs1) us2 us1 L2 ltac:(congruence) (Eff s2 _ D2) U1 U3') as S2.
  rewrite total_gap_sym in S2. fold dh in S1, S2.
  pose proof (mul_le _ _ du Du T1) as K1. pose proof (mul_le _ _ du Du T2) as K2. pose proof (gap_le dv1 dv2) as (p3 & p4 & _).
  apply gap_least; revert S1 S2 K1 K2 p3 p4 Ds;
    generalize dh (total (element_hs s1 i1 cs1)) (total (element_hs s2 i2 cs2)) (dot (element_hs s1 i1 cs1) us1) (dot (element_hs s2 i2 cs2) us2); clear; gz.
Qed.
Print Assumptions C102_running_results_are_stable.

Lemma some_map_inj {A} : forall l l' : list A, map Some l = map Some l' -> l = l'.
Proof.
  induction l as [|x l IH]; intros [|y l'] E; try discriminate; [reflexivity|]. cbn [map] in E.
  assert (E1 : Some x = Some y) by exact (Some_inj _ _ (f_equal (@hd_error _) E)). apply Some_inj in E1. apply (f_equal (@tl _)) in E. cbn [tl] in E.
  rewrite E1, (IH _ E). reflexivity.
Qed.
(** The [epsilon] cannot be left out: at the threshold the result jumps by exactly [epsilon * (hi - lo)], however
    close the second halting probability is to 4/10 (the updates of entry 0 are 0, 0 and 1). *)
Definition jump_calls (v : Qc) : list (call QcNum) :=
  [CCache "x" (u_x 0 0 0 0); CIter (hp (q 1 2) (q 1 4)); CCache "x" (u_x 0 0 0 0); CIter (hp v (q 1 4));
   CCache "x" (u_x 1 0 0 0); CIter (hp 1%Qc (q 1 4))].
Definition entry0 (s : st) : option Qc :=
  match dget "x" (accumulators s) with Some (Leaf a) => nth_error (a_data a) 0 | _ => None end.
Theorem C102_the_jump_is_epsilon (v : Qc) : (q 4 10 < v)%Qc -> (v <= 1)%Qc ->
  let s := run ctl1 (jump_calls (q 4 10)) in let s' := run ctl1 (jump_calls v) in
  halted s 0 = Some true /\ halted s' 0 = Some true /\
  total_gap (element_hs ctl1 0 (jump_calls (q 4 10))) (element_hs ctl1 0 (jump_calls v)) = (v - q 4 10)%Qc /\
  exists x x' : Qc, entry0 s = Some x /\ entry0 s' = Some x' /\ gap x x' = epsilon ctl1.
Proof.
  intros Hv H1 s s'. destruct ctl1_ok as [W F].
  assert (C : forall w, Forall call_wf (jump_calls w)) by (intros w; repeat constructor).
  assert (Cl : clamp v = v) by (apply clamp_id; [revert Hv; unfold q; qc|exact H1]).
  assert (Lg : forall w, past (element_log ctl1 0 (jump_calls w)) =
    [(q 1 2, [("x", u_x 0 0 0 0)]); (w, [("x", u_x 0 0 0 0)]); (1%Qc, [("x", u_x 1 0 0 0)])]) by (intros w; reflexivity).
  assert (G : forall w, element_hs ctl1 0 (jump_calls w) = [q 1 2; clamp w; 1%Qc]).
  { intros w. unfold element_hs. rewrite Lg. unfold effective. cbn [map fst].
    replace (depression_constant ctl1) with 1%Qc by (vm_compute; reflexivity). rewrite !Qcmult_1_l. reflexivity. }
  assert (T : (1 - epsilon ctl1)%Qc = q 9 10) by (vm_compute; reflexivity).
  assert (St : halting_step (q 9 10) 0 [q 1 2; v; 1%Qc] = Some 1).
  { cbn [halting_step]. destruct (Qclt_le_dec (q 9 10) (0 + q 1 2)) as [X|_]; [vm_compute in X; discriminate|].
    destruct (Qclt_le_dec (q 9 10) (0 + q 1 2 + v)) as [_|X]; [reflexivity|exfalso]. revert X Hv. unfold q. qc. }
  split; [vm_compute; reflexivity|]. split.
  { destruct (C05_controller_computes_graves_act ctl1 (jump_calls v)) with (i := 0) as (_ & _ & _ & Hw & _); auto; try reflexivity; try discriminate.
    destruct (C05_every_element_is_covered ctl1 (jump_calls v) W F (C v) 0) as (_ & _ & _ & (b & Eb)); [vm_compute; auto|].
    unfold s'. rewrite Eb, (Hw _ Eb), G, Cl, T. unfold act_halted. now rewrite St. }
  split.
  { rewrite !G, Cl. replace (clamp (q 4 10)) with (q 4 10) by (vm_compute; reflexivity). cbn [total_gap].
    assert (Gr : forall x, gap x x = 0%Qc) by (intros x; unfold gap; destruct (Qclt_le_dec x x); ring). rewrite !Gr.
    unfold gap. destruct (Qclt_le_dec (q 4 10) v) as [_|X]; [ring|exfalso; revert X Hv; unfold q; qc]. }
  exists (q 11 10), 1%Qc. split; [vm_compute; reflexivity|]. split; [|vm_compute; reflexivity].
  destruct (C05_controller_computes_graves_act ctl1 (jump_calls v)) with (i := 0) as (_ & _ & _ & _ & Hw); auto; try reflexivity; try discriminate.
  cbv zeta in Hw. fold s' in Hw.
  assert (Ex : exists a, dget "x" (accumulators s') = Some (Leaf a) /\ a_shape a = [2; 2] /\ length (a_data a) = 4).
  { destruct (run_wf ctl1 (jump_calls v) W (fresh_wf_pending _ F) (C v)) as [W' _]. pose proof (run_frame ctl1 (jump_calls v) W (fresh_wf_pending _ F) (C v)) as Fr.
    fold s' in W', Fr. assert (Ek : exists t, dget "x" (accumulators s') = Some t) by (apply dget_keys; rewrite (sf_accs _ _ Fr); vm_compute; auto).
    destruct Ek as [t Et]. destruct (sf_acc _ _ Fr "x" t_x t eq_refl Et) as [A B]. pose proof (wf_acc _ W' _ _ Et) as L.
    destruct t as [a|n cs]; [|discriminate A]. exists a. split; [exact Et|]. cbn in B. assert (Sh : a_shape a = [2; 2]) by (unfold sig in B; injection B; auto).
    split; [exact Sh|]. inversion L as [|? ? [Aw _] _]; subst. unfold awf, twf in Aw. change (length (a_data a) = size (a_shape a)) in Aw. rewrite Aw, Sh. reflexivity. }
  destruct Ex as (a & Ea & Sa & La). destruct (nth_error_lt (a_data a) 0) as [av Hav]; [lia|].
  destruct (Hw "x" (Leaf a) t_x 0 a (arr [2; 2] [q 1 1; q 2 1; q 3 1; q 4 1]) [2] 0 av (q 1 1)) as (us & Eu & Ev); auto.
  rewrite Lg in Eu. cbn [map snd] in Eu.
  assert (Us : us = [q 0 1; q 0 1; q 1 1]).
  { destruct us as [|u1 [|u2 [|u3 [|]]]]; try discriminate Eu. change [Some (q 0 1); Some (q 0 1); Some (q 1 1)] with (map Some [q 0 1; q 0 1; q 1 1]) in Eu.
    symmetry. now apply some_map_inj. }
  unfold entry0. rewrite Ea, Hav, Ev, Us, G, Cl, T. unfold act_weights. rewrite St. reflexivity.
Qed.
Print Assumptions C102_the_jump_is_epsilon.
(** The two theorems above are about the same computations: with [lo = 0], [hi = 1], equal updates and defaults the
    bound is [v - 4/10 + epsilon], the difference [epsilon]. Another case, without a jump: *)
Example C102_case :
  let cs := jump_calls (q 3 10) in let cs' := jump_calls (q 2 10) in
  wf ctl1 /\ fresh ctl1 /\ Forall call_wf cs /\ Forall call_wf cs' /\ (0 < epsilon ctl1)%Qc /\ (epsilon ctl1 <= 1)%Qc /\ (0 <= depression_constant ctl1)%Qc /\
  halted (run ctl1 cs) 0 = Some true /\ halted (run ctl1 cs') 0 = Some true /\
  option_map this ((iterations (run ctl1 cs)).[0] : option Qc) = Some 3%Q /\ option_map this ((iterations (run ctl1 cs')).[0] : option Qc) = Some 3%Q /\
  this (total_gap (element_hs ctl1 0 cs) (element_hs ctl1 0 cs')) = (1 # 10)%Q /\
  option_map this (entry0 (run ctl1 cs)) = Some (6 # 5)%Q /\ option_map this (entry0 (run ctl1 cs')) = Some (13 # 10)%Q /\
  halted (run ctl1 cs) 1 = Some false /\ halted (run ctl1 cs') 1 = Some false.
Proof.
  destruct ctl1_ok as [W F]. split; [exact W|]. split; [exact F|]. split; [repeat constructor|]. split; [repeat constructor|].
  split; [reflexivity|]. split; [discriminate|]. split; [discriminate|]. do 8 (split; [vm_compute; reflexivity|]). vm_compute; reflexivity.
Qed.
