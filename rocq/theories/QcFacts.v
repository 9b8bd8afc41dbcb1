(** * Order and arithmetic on the exact instance. *)
From Coq Require Import QArith Qcanon Lqa.
From Verif Require Import Base Num.

Lemma Qc_this_eq (x y : Qc) : x = y <-> (this x == this y)%Q.
Proof. split; [now intros ->|apply Qc_is_canon]. Qed.

(** Linear arithmetic over [Qc] by translation to [Q]. *)
Ltac qc_unfold :=
  repeat match goal with
  | H : @eq Qc _ _ |- _ => apply (proj1 (Qc_this_eq _ _)) in H
  | H : @eq (val QcNum) _ _ |- _ => apply (proj1 (Qc_this_eq _ _)) in H
  end;
  try match goal with
  | |- @eq Qc _ _ => apply (proj2 (Qc_this_eq _ _))
  | |- @eq (val QcNum) _ _ => apply (proj2 (Qc_this_eq _ _))
  end;
  unfold Qcle, Qclt, Qcminus, Qcplus, Qcopp, Qcmult, Q2Qc in *; cbn [this] in *;
  repeat match goal with
  | H : context [Qred ?x] |- _ => setoid_rewrite (Qred_correct x) in H
  | |- context [Qred ?x] => setoid_rewrite (Qred_correct x)
  end.
Ltac qc := intros; qc_unfold; lra.
Ltac qcn := intros; qc_unfold; nra.

Lemma Qcltb_lt x y : Qcltb x y = true <-> (x < y)%Qc.
Proof.
  unfold Qcltb. destruct (Qclt_le_dec x y) as [H|H]; split; auto; try discriminate.
  intros H'. exfalso. revert H H'. qc.
Qed.
Lemma Qcltb_ge x y : Qcltb x y = false <-> (y <= x)%Qc.
Proof.
  unfold Qcltb. destruct (Qclt_le_dec x y) as [H|H]; split; auto; try discriminate.
  intros H'. exfalso. revert H H'. qc.
Qed.
Lemma Qcleb_le x y : Qcleb x y = true <-> (x <= y)%Qc.
Proof.
  unfold Qcleb. destruct (Qclt_le_dec y x) as [H|H]; split; auto; try discriminate.
  intros H'. exfalso. revert H H'. qc.
Qed.
Lemma Qcleb_gt x y : Qcleb x y = false <-> (y < x)%Qc.
Proof.
  unfold Qcleb. destruct (Qclt_le_dec y x) as [H|H]; split; auto; try discriminate.
  intros H'. exfalso. revert H H'. qc.
Qed.
Lemma Qceqb_eq x y : Qceqb x y = true <-> x = y.
Proof. unfold Qceqb. destruct (Qc_eq_dec x y); split; congruence. Qed.

Ltac qcb :=
  repeat match goal with
  | H : Qcltb _ _ = true |- _ => apply Qcltb_lt in H
  | H : Qcltb _ _ = false |- _ => apply Qcltb_ge in H
  | H : Qcleb _ _ = true |- _ => apply Qcleb_le in H
  | H : Qcleb _ _ = false |- _ => apply Qcleb_gt in H
  end.

Lemma Qcmult_nonneg (x y : Qc) : (0 <= x)%Qc -> (0 <= y)%Qc -> (0 <= x * y)%Qc.
Proof. qcn. Qed.

