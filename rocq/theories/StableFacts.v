(** * Facts about how far apart two computations are *)
From Coq Require Import QArith Qcanon Lia.
From Verif Require Import Base Spec QcFacts StableSpec.
Open Scope Qc_scope.

Fixpoint result (thr c : Qc) (hs us : list Qc) : Qc :=
  match hs, us with
  | h :: hs', u :: us' => if Qclt_le_dec thr (c + h) then (1 - c) * u else h * u + result thr (c + h) hs' us'
  | _, _ => 0
  end.
Definition weights_from (thr c : Qc) (hs : list Qc) : list Qc :=
  match halting_step thr c hs with
  | None => hs
  | Some n => firstn n hs ++ (1 - c - total (firstn n hs)) :: repeat 0 (length hs - S n)
  end.
Lemma dot_zeros n us : dot (repeat 0 n) us = 0.
Proof. revert us. induction n as [|n IH]; intros [|u us]; cbn; try reflexivity. rewrite IH. ring. Qed.
Lemma result_dot thr hs : forall c us, length us = length hs -> dot (weights_from thr c hs) us = result thr c hs us.
Proof.
  induction hs as [|h hs IH]; intros c [|u us] L; try discriminate; [reflexivity|]. cbn in L. injection L as L. cbn [result]. rewrite <- (IH _ _ L).
  unfold weights_from. cbn [halting_step]. destruct (Qclt_le_dec thr (c + h)) as [H|H].
  - cbn [firstn total app dot length Nat.sub repeat]. rewrite Nat.sub_0_r, dot_zeros. ring.
  - destruct (halting_step thr (c + h) hs) as [n|]; cbn [option_map]; [|reflexivity].
    cbn [firstn total app dot length]. change (S (length hs) - S (S n))%nat with (length hs - S n)%nat. replace (1 - c - (h + total (firstn n hs))) with (1 - (c + h) - total (firstn n hs)) by ring. reflexivity.
Qed.
Lemma act_weights_from thr hs : act_weights thr hs = weights_from thr 0 hs.
Proof. unfold act_weights, weights_from. destruct (halting_step thr 0 hs); [|reflexivity]. replace (1 - 0) with 1 by ring. reflexivity. Qed.

Definition pos (x : Qc) : Qc := if Qclt_le_dec x 0 then 0 else x.
Lemma gap_le x y : x - y <= gap x y /\ y - x <= gap x y /\ 0 <= gap x y.
Proof. unfold gap. destruct (Qclt_le_dec x y) as [H|H]; revert H; repeat split; qc. Qed.
Lemma gap_sym x y : gap x y = gap y x.
Proof. unfold gap. destruct (Qclt_le_dec x y), (Qclt_le_dec y x); revert q q0; qc. Qed.
Lemma gap_least x y b : x - y <= b -> y - x <= b -> gap x y <= b.
Proof. unfold gap. destruct (Qclt_le_dec x y); auto. Qed.
Lemma total_gap_sym : forall xs ys, total_gap xs ys = total_gap ys xs.
Proof. induction xs as [|x xs IH]; intros [|y ys]; cbn; try reflexivity. now rewrite IH, gap_sym. Qed.
Lemma total_gap_pos : forall xs ys, 0 <= total_gap xs ys.
Proof. induction xs as [|x xs IH]; intros [|y ys]; cbn; try (apply Qcle_refl). pose proof (gap_le x y) as (_ & _ & G). specialize (IH ys). revert G IH. qc. Qed.
Lemma pos_le x : 0 <= pos x /\ x <= pos x.
Proof. unfold pos. destruct (Qclt_le_dec x 0) as [H|H]; revert H; split; qc. Qed.
Lemma pos_step e d : pos (e + d) <= pos e + gap 0 d.
Proof. unfold pos, gap. destruct (Qclt_le_dec (e+d) 0), (Qclt_le_dec e 0), (Qclt_le_dec 0 d); revert q q0 q1; qc. Qed.
Ltac gz := repeat match goal with |- context [pos ?x] => generalize (pos x) | |- context [gap ?x ?y] => generalize (gap x y) | |- context [total_gap ?x ?y] => generalize (total_gap x y) | |- context [result ?a ?b ?c ?d] => generalize (result a b c d) end; qc.
Lemma mul_le a b r : 0 <= r -> a <= b -> a * r <= b * r.
Proof. intros. now apply Qcmult_le_compat_r. Qed.
Lemma mul_pos a b : 0 <= a -> 0 <= b -> 0 <= a * b.
Proof. intros. replace 0 with (0 * b) by ring. now apply Qcmult_le_compat_r. Qed.

Definition within (lo hi : Qc) (u : Qc) : Prop := lo <= u /\ u <= hi.
Lemma result_within thr r : thr <= 1 -> 0 <= r -> forall hs us c n, length us = length hs -> Forall (fun h => 0 <= h) hs -> Forall (within 0 r) us -> c <= thr ->
  halting_step thr c hs = Some n -> 0 <= result thr c hs us /\ result thr c hs us <= (1 - c) * r.
Proof.
  intros T R. induction hs as [|h hs IH]; intros [|u us] c n L P U C; try discriminate. cbn in L. injection L as L.
  inversion P as [|? ? P1 P2]; subst. inversion U as [|? ? [U1 U2] U3]; subst. cbn [halting_step result].
  assert (C1 : 0 <= 1 - c) by (revert C T; clear; qc).
  destruct (Qclt_le_dec thr (c + h)) as [H|H].
  - intros _. split; [now apply mul_pos|]. rewrite (Qcmult_comm _ u), (Qcmult_comm _ r). now apply mul_le.
  - destruct (halting_step thr (c + h) hs) as [m|] eqn:E; [|discriminate]. intros _.
    destruct (IH us (c + h) m L P2 U3 H E) as [I1 I2]. pose proof (mul_pos h u P1 U1) as Q1. pose proof (mul_le u r h P1 U2) as Q2.
    split; [revert I1 Q1; clear; qc|]. revert I2 Q2. clear. generalize (result thr (c + h) hs us). intros x.
    replace ((1 - c) * r) with ((1 - (c + h)) * r + r * h) by ring. rewrite (Qcmult_comm h u). intros. generalize dependent ((1 - (c + h)) * r). intros. revert I2 Q2. qc.
Qed.

Lemma stable_gen eps r du : 0 <= eps -> 0 <= r -> 0 <= du -> let thr := 1 - eps in
  forall hs1 hs2 us1 us2 c1 c2 n1 n2,
  length us1 = length hs1 -> length us2 = length hs2 -> length hs1 = length hs2 ->
  Forall (fun h => 0 <= h) hs1 -> Forall (fun h => 0 <= h) hs2 -> Forall (within 0 r) us1 -> Forall (within 0 r) us2 ->
  Forall2 (fun u1 u2 => gap u1 u2 <= du) us1 us2 -> c1 <= thr -> c2 <= thr ->
  halting_step thr c1 hs1 = Some n1 -> halting_step thr c2 hs2 = Some n2 ->
  result thr c1 hs1 us1 - result thr c2 hs2 us2 <=
    (1 - c1) * du + (pos (c2 - c1) + total_gap hs1 hs2 + (if Nat.eqb n1 n2 then 0 else eps)) * r.
Proof.
  intros E0 R0 D0 thr.
  assert (T1 : thr <= 1) by (unfold thr; revert E0; clear; gz).
  induction hs1 as [|h1 hs1 IH]; intros [|h2 hs2] [|u1 us1] [|u2 us2] c1 c2 n1 n2 L1 L2 L P1 P2 U1 U2 G C1 C2; try discriminate.
  cbn in L1, L2, L. injection L1 as L1. injection L2 as L2. injection L as L.
  inversion P1 as [|? ? p1 P1']; subst. inversion P2 as [|? ? p2 P2']; subst.
  inversion U1 as [|? ? [u1l u1h] U1']; subst. inversion U2 as [|? ? [u2l u2h] U2']; subst. inversion G as [|? ? ? ? g G']; subst.
  pose proof (gap_le u1 u2) as (g1 & g2 & _). pose proof (gap_le h1 h2) as (k1 & k2 & k0). pose proof (pos_le (c2 - c1)) as (q0 & q1).
  pose proof (total_gap_pos hs1 hs2) as tg.
  assert (m1 : 0 <= 1 - c1) by (revert C1 T1; clear; gz).
  assert (m2 : 0 <= 1 - c2) by (revert C2 T1; clear; gz).
  assert (ud : u1 - u2 <= du) by (revert g g1; clear; gz).
  cbn [halting_step result total_gap].
  destruct (Qclt_le_dec thr (c1 + h1)) as [H1|H1], (Qclt_le_dec thr (c2 + h2)) as [H2|H2].
  - intros [= <-] [= <-]. cbn [Nat.eqb].
    assert (A1 : (u1 - u2) * (1 - c1) <= du * (1 - c1)) by now apply mul_le.
    assert (A2 : (c2 - c1) * u2 <= pos (c2 - c1) * u2) by now apply mul_le.
    assert (A3 : u2 * pos (c2 - c1) <= r * pos (c2 - c1)) by now apply mul_le.
    assert (A4 : 0 <= (gap h1 h2 + total_gap hs1 hs2) * r) by (apply mul_pos; [revert k0 tg; clear; gz|assumption]).
    revert A1 A2 A3 A4. clear. gz.
  - intros [= <-]. destruct (halting_step thr (c2 + h2) hs2) as [m|] eqn:E2; [|discriminate]. intros [= <-]. cbn [Nat.eqb].
    destruct (result_within thr r T1 R0 hs2 us2 (c2 + h2) m L2 P2' U2' H2 E2) as [I1 I2].
    assert (A1 : (u1 - u2) * (1 - c1) <= du * (1 - c1)) by now apply mul_le.
    assert (A2 : (1 - c1 - h2) * u2 <= (pos (c2 - c1) + (gap h1 h2 + total_gap hs1 hs2) + eps) * u2).
    { apply mul_le; [assumption|]. unfold thr in H1. revert H1 k1 q0 tg. clear. gz. }
    assert (A3 : u2 * (pos (c2 - c1) + (gap h1 h2 + total_gap hs1 hs2) + eps) <= r * (pos (c2 - c1) + (gap h1 h2 + total_gap hs1 hs2) + eps)).
    { apply mul_le; [|assumption]. revert q0 k0 tg E0. clear. gz. }
    revert I1 A1 A2 A3. clear. gz.
  - destruct (halting_step thr (c1 + h1) hs1) as [m|] eqn:E1; [|discriminate]. intros [= <-] [= <-]. cbn [Nat.eqb].
    destruct (result_within thr r T1 R0 hs1 us1 (c1 + h1) m L1 P1' U1' H1 E1) as [I1 I2].
    assert (A1 : (u1 - u2) * h1 <= du * h1) by now apply mul_le.
    assert (A2 : h1 * du <= (1 - c1) * du).
    { apply mul_le; [assumption|]. revert H1 T1. clear. gz. }
    assert (A0 : 0 <= (gap h1 h2 + total_gap hs1 hs2 + eps) * r) by (apply mul_pos; [revert k0 tg E0; clear; gz|assumption]).
    destruct (Qclt_le_dec (h1 - 1 + c2) 0) as [K|K].
    + assert (A3 : (1 - (c1 + h1)) * r <= (pos (c2 - c1) + (gap h1 h2 + total_gap hs1 hs2) + eps) * r).
      { apply mul_le; [assumption|]. unfold thr in H2. revert H2 k2 q1 tg. clear. gz. }
      assert (A4 : 0 <= (- (h1 - 1 + c2)) * u2) by (apply mul_pos; [revert K; clear; gz|assumption]).
      revert I2 A1 A2 A3 A4. clear. gz.
    + assert (A3 : (c2 - c1) * r <= pos (c2 - c1) * r) by now apply mul_le.
      assert (A4 : u2 * (h1 - 1 + c2) <= r * (h1 - 1 + c2)) by now apply mul_le.
      revert I2 A0 A1 A2 A3 A4. clear. gz.
  - destruct (halting_step thr (c1 + h1) hs1) as [m1'|] eqn:E1; [|discriminate]. intros [= <-].
    destruct (halting_step thr (c2 + h2) hs2) as [m2'|] eqn:E2; [|discriminate]. intros [= <-]. cbn [Nat.eqb].
    specialize (IH hs2 us1 us2 (c1 + h1) (c2 + h2) m1' m2' L1 L2 L P1' P2' U1' U2' G' H1 H2 E1 E2).
    set (ex := if Nat.eqb m1' m2' then 0 else eps) in *.
    assert (A1 : (u1 - u2) * h1 <= du * h1) by now apply mul_le.
    assert (A2 : (h1 - h2) * u2 + pos (c2 + h2 - (c1 + h1)) * r <= (pos (c2 - c1) + gap h1 h2) * r).
    { replace (c2 + h2 - (c1 + h1)) with ((c2 - c1) + (h2 - h1)) by ring. unfold pos at 1.
      destruct (Qclt_le_dec (c2 - c1 + (h2 - h1)) 0) as [K|K].
      - assert (B1 : (h1 - h2) * u2 <= gap h1 h2 * u2) by now apply mul_le.
        assert (B2 : u2 * gap h1 h2 <= r * gap h1 h2) by now apply mul_le.
        assert (B3 : 0 <= pos (c2 - c1) * r) by now apply mul_pos.
        revert B1 B2 B3. clear. gz.
      - destruct (Qclt_le_dec h1 h2) as [J|J].
        + assert (B1 : 0 <= (h2 - h1) * u2) by (apply mul_pos; [revert J; clear; gz|assumption]).
          assert (B2 : (c2 - c1 + (h2 - h1)) * r <= (pos (c2 - c1) + gap h1 h2) * r) by (apply mul_le; [assumption|revert q1 k2; clear; gz]).
          revert B1 B2. clear. gz.
        + assert (B1 : u2 * (h1 - h2) <= r * (h1 - h2)) by (apply mul_le; [revert J; clear; gz|assumption]).
          assert (B2 : (c2 - c1) * r <= (pos (c2 - c1) + gap h1 h2) * r) by (apply mul_le; [assumption|revert q1 k0; clear; gz]).
          revert B1 B2. clear. gz. }
    revert IH A1 A2. clear. gz.
Qed.

Lemma result_shift thr lo : forall hs us c n, length us = length hs -> halting_step thr c hs = Some n ->
  result thr c hs us = result thr c hs (map (fun u => u - lo) us) + (1 - c) * lo.
Proof.
  induction hs as [|h hs IH]; intros [|u us] c n L; try discriminate. cbn in L. injection L as L. cbn [halting_step result map].
  destruct (Qclt_le_dec thr (c + h)); [intros _; ring|]. destruct (halting_step thr (c + h) hs) as [m|] eqn:E; [|discriminate]. intros _.
  rewrite (IH us _ _ L E). ring.
Qed.
Lemma map_within lo hi us : Forall (within lo hi) us -> Forall (within 0 (hi - lo)) (map (fun u => u - lo) us).
Proof. induction 1 as [|u us [H1 H2] _ IH]; cbn; constructor; [|exact IH]. split; revert H1 H2; clear; qc. Qed.
Lemma map_gap lo du us1 us2 : Forall2 (fun u1 u2 => gap u1 u2 <= du) us1 us2 ->
  Forall2 (fun u1 u2 => gap u1 u2 <= du) (map (fun u => u - lo) us1) (map (fun u => u - lo) us2).
Proof.
  induction 1 as [|x y xs ys H _ IH]; cbn; constructor; [|exact IH]. pose proof (gap_le x y) as (A & B & _).
  apply gap_least; revert H A B; clear; gz.
Qed.
Lemma Forall2_len {A B} (R : A -> B -> Prop) l l' : Forall2 R l l' -> length l = length l'.
Proof. induction 1; cbn; congruence. Qed.
Lemma Forall2_swap {A B} (R : A -> B -> Prop) l l' : Forall2 R l l' -> Forall2 (fun x y => R y x) l' l.
Proof. induction 1; constructor; auto. Qed.

Lemma stable_one eps lo hi du hs1 hs2 us1 us2 n1 n2 : 0 < eps -> eps <= 1 -> lo <= hi -> 0 <= du ->
  length us1 = length hs1 -> length us2 = length hs2 ->
  Forall (fun h => 0 <= h) hs1 -> Forall (fun h => 0 <= h) hs2 -> Forall (within lo hi) us1 -> Forall (within lo hi) us2 ->
  Forall2 (fun u1 u2 => gap u1 u2 <= du) us1 us2 ->
  halting_step (1 - eps) 0 hs1 = Some n1 -> halting_step (1 - eps) 0 hs2 = Some n2 ->
  dot (act_weights (1 - eps) hs1) us1 - dot (act_weights (1 - eps) hs2) us2 <= du + (total_gap hs1 hs2 + (if Nat.eqb n1 n2 then 0 else eps)) * (hi - lo).
Proof.
  intros E0 E1 LH D L1 L2 P1 P2 U1 U2 G H1 H2. rewrite !act_weights_from, !result_dot by assumption.
  rewrite (result_shift _ lo _ _ _ _ L1 H1), (result_shift _ lo _ _ _ _ L2 H2).
  pose proof (stable_gen eps (hi - lo) du) as S. cbv zeta in S.
  specialize (S ltac:(revert E0; clear; qc) ltac:(revert LH; clear; qc) D hs1 hs2 (map (fun u => u - lo) us1) (map (fun u => u - lo) us2) 0 0 n1 n2).
  rewrite !map_length in S. specialize (S L1 L2 ltac:(apply Forall2_len in G; congruence) P1 P2 (map_within _ _ _ U1) (map_within _ _ _ U2) (map_gap _ _ _ _ G)).
  assert (T : 0 <= 1 - eps) by (revert E1; clear; qc). specialize (S T T H1 H2).
  assert (Z : pos (0 - 0) = 0) by reflexivity. rewrite Z in S. revert S. generalize (if Nat.eqb n1 n2 then 0 else eps). clear. gz.
Qed.
Lemma stable_halted eps lo hi du hs1 hs2 us1 us2 n1 n2 : 0 < eps -> eps <= 1 -> lo <= hi -> 0 <= du ->
  length us1 = length hs1 -> length us2 = length hs2 ->
  Forall (fun h => 0 <= h) hs1 -> Forall (fun h => 0 <= h) hs2 -> Forall (within lo hi) us1 -> Forall (within lo hi) us2 ->
  Forall2 (fun u1 u2 => gap u1 u2 <= du) us1 us2 ->
  halting_step (1 - eps) 0 hs1 = Some n1 -> halting_step (1 - eps) 0 hs2 = Some n2 ->
  gap (dot (act_weights (1 - eps) hs1) us1) (dot (act_weights (1 - eps) hs2) us2) <= du + (total_gap hs1 hs2 + (if Nat.eqb n1 n2 then 0 else eps)) * (hi - lo).
Proof.
  intros. apply gap_least; [now apply stable_one|]. rewrite total_gap_sym, Nat.eqb_sym. apply stable_one; auto.
  apply Forall2_swap in H9. clear -H9. induction H9; constructor; auto. now rewrite gap_sym.
Qed.

Lemma dot_close M du : 0 <= M -> 0 <= du -> forall hs1 hs2 us1 us2, length us1 = length hs1 -> length hs1 = length hs2 ->
  Forall (fun h => 0 <= h) hs1 -> Forall (within (- M) M) us2 -> Forall2 (fun u1 u2 => gap u1 u2 <= du) us1 us2 ->
  dot hs1 us1 - dot hs2 us2 <= total hs1 * du + total_gap hs1 hs2 * M.
Proof.
  intros M0 D0. induction hs1 as [|h1 hs1 IH]; intros [|h2 hs2] [|u1 us1] us2 L1 L P U G; try discriminate.
  cbn in L1, L. injection L1 as L1. injection L as L. inversion P; subst. inversion G as [|? u2 ? us2' g G']; subst. inversion U as [|? ? [a b] U']; subst.
    cbn [dot total total_gap]. specialize (IH hs2 us1 us2' L1 L H2 U' G'). pose proof (gap_le u1 u2) as (g1 & _). pose proof (gap_le h1 h2) as (k1 & k2 & k0).
    assert (A1 : (u1 - u2) * h1 <= du * h1) by (apply mul_le; [assumption|revert g g1; clear; gz]).
    assert (A2 : (h1 - h2) * u2 <= gap h1 h2 * M).
    { assert (B1 : 0 <= (gap h1 h2 - (h1 - h2)) * (M + u2)) by (apply mul_pos; [revert k1; clear; gz|revert a; clear; qc]).
      assert (B2 : 0 <= (gap h1 h2 + (h1 - h2)) * (M - u2)) by (apply mul_pos; [revert k2; clear; gz|revert b; clear; qc]).
      revert B1 B2. clear. gz. }
    revert IH A1 A2. generalize (dot hs1 us1) (dot hs2 us2') (total hs1). clear. gz.
Qed.
