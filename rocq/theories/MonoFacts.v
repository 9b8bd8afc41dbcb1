(** * The scalar program over exact rationals: monotonicity, and the size of the remainder. *)
From Coq Require Import QArith Qcanon.
From Verif Require Import Base PyTree Tensor Num States Controller Wf Spec History ElementSpec ScalarSpec.
From Verif Require Import QcFacts SpecFacts GravesFacts ScalarFacts.
Close Scope Qc_scope. Close Scope Q_scope. Open Scope nat_scope.

Lemma clamp_mono v w : (v <= w)%Qc -> (clamp v <= clamp w)%Qc.
Proof.
  intros H. pose proof (clamp_range v) as [A B]. pose proof (clamp_range w) as [A' B']. unfold clamp in *.
  destruct (Qclt_le_dec v 0), (Qclt_le_dec w 0), (Qclt_le_dec 1 v), (Qclt_le_dec 1 w); auto;
    try (revert A A' B B'; qc); exfalso; revert H q q0; try revert q1; try revert q2; qc.
Qed.
Lemma offered_exact (dep v : Qc) : offered (N := QcNum) dep v = (dep * clamp v)%Qc.
Proof. rewrite <- clip01_clamp. reflexivity. Qed.
Lemma offered_mono (d1 d2 v1 v2 : Qc) : (0 <= d1)%Qc -> (d1 <= d2)%Qc -> (v1 <= v2)%Qc ->
  (offered (N := QcNum) d1 v1 <= offered (N := QcNum) d2 v2)%Qc.
Proof.
  intros D0 D L. rewrite !offered_exact. pose proof (clamp_mono v1 v2 L) as M. pose proof (clamp_range v1) as [A _].
  apply Qcle_trans with (d2 * clamp v1)%Qc.
  - apply Qcmult_le_compat_r; auto.
  - rewrite (Qcmult_comm d2), (Qcmult_comm d2). apply Qcmult_le_compat_r; [exact M|]. now apply Qcle_trans with d1.
Qed.

Section Two.
  Context (T1 T2 d1 d2 : Qc) (HT : (T2 <= T1)%Qc) (H1 : (T1 <= 1)%Qc) (D0 : (0 <= d1)%Qc) (D : (d1 <= d2)%Qc).
  Notation S := (stats QcNum).
  Definition behind (x y : S) : Prop :=
    (cumulative x <= cumulative y)%Qc /\ (cumulative y <= 1)%Qc /\ (steps y <= steps x)%Qc.
  Lemma behind_over x y : behind x y -> is_over (N := QcNum) T1 x = true -> is_over (N := QcNum) T2 y = true.
  Proof.
    intros (A & _) H. unfold is_over in *. cbn [v_ltb QcNum] in *. apply Qcltb_lt in H. apply Qcltb_lt. revert A H HT. qc.
  Qed.
  Lemma behind_step x y v w : behind x y -> (v <= w)%Qc ->
    behind (stats_step (N := QcNum) T1 d1 x v) (stats_step (N := QcNum) T2 d2 y w).
  Proof.
    intros B L. pose proof (offered_mono d1 d2 v w D0 D L) as M. pose proof (behind_over x y B) as O.
    destruct B as (A & Y & N). unfold behind, stats_step. cbn [cumulative steps]. cbn [v_add v_one QcNum].
    assert (U : (cumulative x + used (N := QcNum) T1 d1 x v <= cumulative y + used (N := QcNum) T2 d2 y w)%Qc /\
                (cumulative y + used (N := QcNum) T2 d2 y w <= 1)%Qc).
    { unfold used, goes_over. cbn [v_ltb v_add v_sub v_one QcNum].
      destruct (Qcltb T1 (offered (N := QcNum) d1 v + cumulative x)) eqn:E1,
        (Qcltb T2 (offered (N := QcNum) d2 w + cumulative y)) eqn:E2; qcb;
        (split; [revert A Y M E1 E2 HT H1; qc|revert Y E2 HT H1; qc]). }
    split; [apply U|]. split; [apply U|].
    destruct (is_over (N := QcNum) T1 x) eqn:E1.
    - rewrite (O eq_refl). exact N.
    - destruct (is_over (N := QcNum) T2 y); revert N; qc.
  Qed.
  Lemma behind_run vs : forall ws x y, behind x y -> Forall2 Qcle vs ws ->
    behind (stats_run (N := QcNum) T1 d1 x (map Some vs)) (stats_run (N := QcNum) T2 d2 y (map Some ws)).
  Proof.
    induction vs as [|v vs IH]; intros ws x y B F; inversion F; subst; [exact B|].
    cbn [map stats_run fold_left stats_event]. apply IH; auto. now apply behind_step.
  Qed.
  Lemma behind0 : behind stats0 stats0.
  Proof. unfold behind, stats0. cbn [cumulative steps v_zero QcNum]. repeat split; discriminate. Qed.
End Two.

(** ** The remainder *)
Section Remainder.
  Context (T d : Qc) (HT : (T < 1)%Qc) (T0 : (0 <= T)%Qc) (D0 : (0 <= d)%Qc).
  Definition remainder_ok (x : stats QcNum) : Prop :=
    (0 <= cumulative x)%Qc /\ (cumulative x <= 1)%Qc /\
    (if is_over (N := QcNum) T x then cumulative x = 1%Qc /\ (1 - T <= remainder x)%Qc /\ (remainder x <= 1)%Qc else remainder x = 0%Qc).
  Lemma remainder_event x e : remainder_ok x -> remainder_ok (stats_event (N := QcNum) T d x e).
  Proof.
    intros (A & B & C). destruct e as [v|]; cbn [stats_event].
    - assert (O : (0 <= offered (N := QcNum) d v)%Qc).
      { rewrite offered_exact. apply Qcmult_nonneg; [exact D0|apply clamp_range]. }
      unfold remainder_ok, stats_step, is_over, used, goes_over in *. cbn [cumulative remainder v_ltb v_add v_sub v_one QcNum] in *.
      destruct (Qcltb T (cumulative x)) eqn:E0.
      + destruct C as (C1 & C2 & C3). assert (G : Qcltb T (offered (N := QcNum) d v + cumulative x) = true).
        { qcb. apply Qcltb_lt. revert E0 O. qc. }
        rewrite G. cbn [andb negb]. replace (cumulative x + (1 - cumulative x))%Qc with 1%Qc by ring.
        rewrite C1 in E0. rewrite E0. repeat split; auto; discriminate.
      + destruct (Qcltb T (offered (N := QcNum) d v + cumulative x)) eqn:G; cbn [andb negb].
        * replace (cumulative x + (1 - cumulative x))%Qc with 1%Qc by ring.
          split; [discriminate|]. split; [apply Qcle_refl|].
          assert (E1 : Qcltb T 1 = true) by now apply Qcltb_lt. rewrite E1.
          qcb. split; [reflexivity|]. split; revert E0 A; qc.
        * qcb. assert (X : Qcltb T (cumulative x + offered (N := QcNum) d v) = false) by (apply Qcltb_ge; revert G; qc).
          rewrite X. split; [revert A O; qc|]. split; [revert G HT; qc|exact C].
    - unfold remainder_ok, stats_reset, switch, is_over in *. cbn [cumulative remainder v_ltb v_mul v_zero v_one QcNum] in *.
      destruct (Qcltb T (cumulative x)) eqn:E0.
      + rewrite !Qcmult_0_r. assert (X : Qcltb T 0 = false) by (apply Qcltb_ge; exact T0). rewrite X. repeat split; discriminate.
      + rewrite !Qcmult_1_r. rewrite E0. auto.
  Qed.
  Lemma remainder_run es : forall x, remainder_ok x -> remainder_ok (stats_run (N := QcNum) T d x es).
  Proof.
    induction es as [|e es IH]; intros x H; [exact H|]. cbn [stats_run fold_left]. apply IH. now apply remainder_event.
  Qed.
  Lemma remainder0 : remainder_ok stats0.
  Proof.
    unfold remainder_ok, stats0, is_over. cbn [cumulative remainder v_ltb v_zero QcNum].
    assert (X : Qcltb T 0 = false) by now apply Qcltb_ge. rewrite X. repeat split; discriminate.
  Qed.
End Remainder.
