(** * Vocabulary for statements about how far apart two computations are (no model code) *)
From Coq Require Import QArith Qcanon.
From Verif Require Import Base.
Open Scope Qc_scope.

(** How far apart two numbers are, and two lists in total, entry by entry. *)
Definition gap (x y : Qc) : Qc := if Qclt_le_dec x y then y - x else x - y.
Fixpoint total_gap (xs ys : list Qc) : Qc :=
  match xs, ys with
  | x :: xs', y :: ys' => gap x y + total_gap xs' ys'
  | _, _ => 0
  end.
