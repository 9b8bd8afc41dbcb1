(** * Proofs: how many steps a computation takes (for PropsPace.v) *)
From Coq Require Import QArith Qcanon Lia.
From Verif Require Import Base Num Spec PaceSpec BaseFacts QcFacts SpecFacts.
Open Scope Qc_scope.

Lemma of_nat_S n : Qc_of_nat (S n) = Qc_of_nat n + 1.
Proof. unfold Qc_of_nat. rewrite Nat2Z.inj_succ. unfold Z.succ. apply Qc_is_canon. unfold Qcplus, Q2Qc. cbn [this]. rewrite !Qred_correct. rewrite inject_Z_plus. reflexivity. Qed.
Lemma of_nat_0 : Qc_of_nat 0 = 0.
Proof. now apply Qc_is_canon. Qed.
Lemma of_nat_nonneg n : 0 <= Qc_of_nat n.
Proof. induction n as [|n IH]; [rewrite of_nat_0; apply Qcle_refl|]. rewrite of_nat_S. revert IH. generalize (Qc_of_nat n). clear. qc. Qed.
Lemma of_nat_add n m : Qc_of_nat (n + m) = Qc_of_nat n + Qc_of_nat m.
Proof. induction n as [|n IH]; cbn [Nat.add]; [rewrite of_nat_0; ring|]. rewrite !of_nat_S, IH. ring. Qed.
Lemma of_nat_mul n m : Qc_of_nat (n * m) = Qc_of_nat n * Qc_of_nat m.
Proof. induction n as [|n IH]; cbn [Nat.mul]; [rewrite of_nat_0; ring|]. rewrite of_nat_add, IH, of_nat_S. ring. Qed.
Lemma of_nat_le n m : (n <= m)%nat -> Qc_of_nat n <= Qc_of_nat m.
Proof. intros H. replace m with (n + (m - n))%nat by lia. rewrite of_nat_add. generalize (of_nat_nonneg (m - n)). generalize (Qc_of_nat (m - n)) (Qc_of_nat n). clear. qc. Qed.

Lemma total_bounds a b hs : Forall (fun h => a <= h /\ h <= b) hs -> Qc_of_nat (length hs) * a <= total hs /\ total hs <= Qc_of_nat (length hs) * b.
Proof.
  induction 1 as [|h hs [A B] F [IA IB]]; cbn [length total].
  - rewrite of_nat_0. replace (0 * a) with 0 by ring. replace (0 * b) with 0 by ring. split; apply Qcle_refl.
  - rewrite of_nat_S. replace ((Qc_of_nat (length hs) + 1) * a) with (Qc_of_nat (length hs) * a + a) by ring.
    replace ((Qc_of_nat (length hs) + 1) * b) with (Qc_of_nat (length hs) * b + b) by ring.
    revert A B IA IB. generalize (Qc_of_nat (length hs) * a) (Qc_of_nat (length hs) * b) (total hs). clear. intros. split; qc.
Qed.
Lemma firstn_bounds a b hs n : (n <= length hs)%nat -> Forall (fun h => a <= h /\ h <= b) hs ->
  Qc_of_nat n * a <= total (firstn n hs) /\ total (firstn n hs) <= Qc_of_nat n * b.
Proof.
  intros L F. assert (G : Forall (fun h => a <= h /\ h <= b) (firstn n hs)) by (rewrite <- (firstn_skipn n hs) in F; now apply Forall_app in F).
  pose proof (total_bounds a b _ G) as X. now rewrite firstn_length_le in X by exact L.
Qed.
Lemma not_halted_total T hs : 0 <= T -> halting_step T 0 hs = None -> total hs <= T.
Proof.
  intros T0. assert (G : forall hs c, c <= T -> halting_step T c hs = None -> c + total hs <= T).
  { clear. intros hs. induction hs as [|h hs IH]; intros c C H; cbn [total halting_step] in *; [revert C; qc|].
    destruct (Qclt_le_dec T (c + h)) as [X|X]; [discriminate|]. destruct (halting_step T (c + h) hs) eqn:E; [discriminate|].
    specialize (IH _ X E). replace (c + (h + total hs)) with (c + h + total hs) by ring. exact IH. }
  intros H. specialize (G hs 0 T0 H). now rewrite Qcplus_0_l in G.
Qed.

Section Pace.
  Context (T a b : Qc) (hs : list Qc) (T0 : 0 <= T) (F : Forall (fun h => a <= h /\ h <= b) hs).
  Let k := act_iterations T hs.
  Lemma pace_length : (k <= length hs)%nat.
  Proof. unfold k, act_iterations. destruct (halting_step T 0 hs) eqn:E; [|lia]. apply halting_step_first in E. lia. Qed.
  Lemma pace_halted : act_halted T hs = true -> (1 <= k)%nat /\ T < Qc_of_nat k * b /\ Qc_of_nat (k - 1) * a <= T /\
    1 - Qc_of_nat (k - 1) * b <= act_residual T hs /\ act_residual T hs <= 1 - Qc_of_nat (k - 1) * a.
  Proof.
    unfold act_halted, k, act_iterations, act_residual. destruct (halting_step T 0 hs) as [n|] eqn:E; [|discriminate]. intros _.
    apply halting_step_first in E as (L & Hi & Lo). replace (S n - 1)%nat with n by lia. split; [lia|].
    destruct (firstn_bounds a b hs (S n) L F) as [_ B1]. destruct (firstn_bounds a b hs n (Nat.lt_le_incl _ _ L) F) as [A2 B2].
    split; [revert Hi B1; generalize (total (firstn (S n) hs)) (Qc_of_nat (S n) * b); clear; qc|].
    split; [|split].
    - destruct n as [|n]; [rewrite of_nat_0; replace (0 * a) with 0 by ring; exact T0|].
      specialize (Lo (S n) ltac:(lia)). revert Lo A2. generalize (total (firstn (S n) hs)) (Qc_of_nat (S n) * a). clear. qc.
    - revert B2. generalize (total (firstn n hs)) (Qc_of_nat n * b). clear. qc.
    - revert A2. generalize (total (firstn n hs)) (Qc_of_nat n * a). clear. qc.
  Qed.
  Lemma pace_not_halted : act_halted T hs = false -> k = length hs /\ Qc_of_nat k * a <= T.
  Proof.
    unfold act_halted, k, act_iterations. destruct (halting_step T 0 hs) as [n|] eqn:E; [discriminate|]. intros _. split; [reflexivity|].
    destruct (total_bounds a b hs F) as [A _]. pose proof (not_halted_total T hs T0 E) as X.
    revert A X. generalize (total hs) (Qc_of_nat (length hs) * a). clear. qc.
  Qed.
End Pace.

Section Steady.
  Context (T x : Qc) (N n : nat) (SN : steps_needed T x N).
  Lemma total_repeat m : total (repeat x m) = Qc_of_nat m * x.
  Proof. induction m as [|m IH]; cbn [repeat total]; [rewrite of_nat_0; ring|]. rewrite IH, of_nat_S. ring. Qed.
  Lemma firstn_repeat m : (m <= n)%nat -> firstn m (repeat x n) = repeat x m.
  Proof. intros L. replace n with (m + (n - m))%nat by lia. rewrite repeat_app, firstn_app, repeat_length, Nat.sub_diag, firstn_all2 by (rewrite repeat_length; lia). apply app_nil_r. Qed.
  Lemma steady_step : (1 <= N)%nat -> halting_step T 0 (repeat x n) = if Nat.leb N n then Some (N - 1)%nat else None.
  Proof.
    intros N1. destruct SN as [Hi Lo]. destruct (Nat.leb_spec N n) as [L|L].
    - apply halting_step_first. rewrite repeat_length. split; [lia|]. replace (S (N - 1)) with N by lia.
      rewrite firstn_repeat, total_repeat by lia. split; [exact Hi|]. intros m M. rewrite firstn_repeat, total_repeat by lia. apply Lo. lia.
    - destruct (halting_step T 0 (repeat x n)) as [m|] eqn:E; [exfalso|reflexivity].
      apply halting_step_first in E as (A & B & _). rewrite repeat_length in A. rewrite firstn_repeat, total_repeat in B by lia.
      specialize (Lo (S m) ltac:(lia)). revert Lo B. generalize (Qc_of_nat (S m) * x). clear. qc.
  Qed.
End Steady.
Lemma steps_positive T x N : 0 <= T -> steps_needed T x N -> (1 <= N)%nat.
Proof. intros T0 [H _]. destruct N as [|N]; [|lia]. exfalso. rewrite of_nat_0 in H. replace (0 * x) with 0 in H by ring. revert T0 H. clear. qc. Qed.
(** Such a number of steps exists. *)
Lemma archimedes (T x : Qc) : 0 < x -> exists n, T < Qc_of_nat n * x.
Proof.
  intros X. set (q := T / x). exists (Z.to_nat (Z.max 0 (Qnum (this q)) + 1)).
  assert (Q : T = q * x) by (unfold q; field; intros E; rewrite E in X; discriminate).
  assert (L : q < Qc_of_nat (Z.to_nat (Z.max 0 (Qnum (this q)) + 1))).
  { unfold Qc_of_nat. rewrite Z2Nat.id by lia. unfold Qclt, Q2Qc. cbn [this]. rewrite Qred_correct. destruct (this q) as [a d]. unfold Qlt. cbn. nia. }
  rewrite Q at 1. apply Qcmult_lt_compat_r; assumption.
Qed.
Lemma steps_exist (T x : Qc) : 0 < x -> exists n, steps_needed T x n.
Proof.
  intros X. destruct (archimedes T x X) as [n Hn].
  assert (G : forall n, T < Qc_of_nat n * x -> exists k, steps_needed T x k).
  { clear Hn n. intros n. induction n as [n IH] using lt_wf_ind. intros H.
    destruct n as [|n]; [exists 0%nat; split; [exact H|intros; lia]|].
    destruct (Qclt_le_dec T (Qc_of_nat n * x)) as [C|C]; [apply (IH n); [lia|exact C]|].
    exists (S n). split; [exact H|]. intros m M. apply Qcle_trans with (Qc_of_nat n * x); [|exact C].
    apply Qcmult_le_compat_r; [apply of_nat_le; lia|now apply Qclt_le_weak]. }
  eauto.
Qed.

(** The same as bounds on the number of steps. *)
Lemma mul_lt_cancel n m a : 0 <= a -> Qc_of_nat n * a < Qc_of_nat m * a -> (n < m)%nat.
Proof.
  intros A H. destruct (Nat.lt_ge_cases n m) as [L|L]; [exact L|exfalso].
  assert (X : Qc_of_nat m * a <= Qc_of_nat n * a) by (apply Qcmult_le_compat_r; [now apply of_nat_le|exact A]).
  revert H X. generalize (Qc_of_nat n * a) (Qc_of_nat m * a). clear. qc.
Qed.
Section Counts.
  Context (T a b : Qc) (hs : list Qc) (T0 : 0 <= T) (A0 : 0 <= a) (B0 : 0 <= b) (F : Forall (fun h => a <= h /\ h <= b) hs).
  Let k := act_iterations T hs.
  Lemma pace_at_most m : T < Qc_of_nat m * a -> (k <= m)%nat /\ ((m <= length hs)%nat -> act_halted T hs = true).
  Proof.
    intros H. destruct (act_halted T hs) eqn:E.
    - split; [|reflexivity]. destruct (pace_halted T a b hs T0 F E) as (K1 & _ & X & _). fold k in K1, X.
      assert (k - 1 < m)%nat; [|lia]. apply (mul_lt_cancel _ _ a A0). now apply Qcle_lt_trans with T.
    - destruct (pace_not_halted T a b hs T0 F E) as [K X]. fold k in K, X.
      assert (k < m)%nat by (apply (mul_lt_cancel _ _ a A0); now apply Qcle_lt_trans with T). split; lia.
  Qed.
  Lemma pace_at_least m : Qc_of_nat m * b <= T -> (Nat.min m (length hs) <= k)%nat /\ (act_halted T hs = true -> (m < k)%nat).
  Proof.
    intros H. destruct (act_halted T hs) eqn:E.
    - destruct (pace_halted T a b hs T0 F E) as (_ & X & _). fold k in X.
      assert (m < k)%nat by (apply (mul_lt_cancel _ _ b B0); now apply Qcle_lt_trans with T). split; [lia|auto].
    - destruct (pace_not_halted T a b hs T0 F E) as [K X]. fold k in K. split; [lia|discriminate].
  Qed.
End Counts.
Lemma scaled_between d lo hi vs : 0 <= d -> Forall (between lo hi) vs -> Forall (fun h => d * lo <= h /\ h <= d * hi) (map (fun v => d * clamp v) vs).
Proof.
  intros D F. apply Forall_map. revert F. apply Forall_impl. intros v [A B]. rewrite !(Qcmult_comm d). split; now apply Qcmult_le_compat_r.
Qed.
