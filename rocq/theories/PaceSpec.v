(** * Specification: how many steps a computation takes (C97) *)
From Coq Require Import QArith Qcanon.
From Verif Require Import Base Num Spec.
Open Scope Qc_scope.

(** The halting value [v], clamped to [0,1] as the controller does, lies between [lo] and [hi]. *)
Definition between (lo hi v : Qc) : Prop := lo <= clamp v /\ clamp v <= hi.
(** [n] steps of size [x] are the first to get above [T]. *)
Definition steps_needed (T x : Qc) (n : nat) : Prop :=
  T < Qc_of_nat n * x /\ forall m, (m < n)%nat -> Qc_of_nat m * x <= T.
