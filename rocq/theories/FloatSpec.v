(** * Vocabulary for statements about IEEE-754 controllers. Nothing here models repository code.
    [B2R] (Flocq) is the real number a finite floating point number stands for. *)
From Coq Require Import ZArith Reals.
From Flocq Require Import Core BinarySingleNaN.
From Verif Require Import Base PyTree Tensor Num FloatNum States.
Local Open Scope R_scope.

Section Spec.
  Context {prec emax : Z}.
  Notation bf := (binary_float prec emax).
  (** A finite number between zero and one; a finite number that is not negative. *)
  Definition funit (x : bf) : Prop := is_finite x = true /\ 0 <= B2R x <= 1.
  Definition fnonneg (x : bf) : Prop := is_finite x = true /\ 0 <= B2R x.
  (** The float [n] stands for the integer [k]. *)
  Definition counts (n : bf) (k : Z) : Prop := is_finite n = true /\ B2R n = IZR k.
End Spec.
(** An epsilon between zero and one. *)
Definition eps_ok (e : pyfloat) : Prop := is_finite e = true /\ 0 <= B2R e <= 1.
(** A depression constant that is a finite number, not negative, also in the format of the arrays. *)
Definition dep_ok (prec emax : Z) {Hp : Prec_gt_0 prec} {Hm : Prec_lt_emax prec emax} (d : pyfloat) : Prop :=
  fnonneg (f_of_py d : binary_float prec emax).
(** The largest epsilon for which [1 - epsilon], computed as a Python float and then converted to a
    format of [prec] bits, is 1.0. *)
Definition lost_epsilon (prec : Z) : R :=
  if (prec =? 53)%Z then bpow radix2 (-54) else bpow radix2 (- prec - 1) + bpow radix2 (-54).
(** What remains of a number that is multiplied by zero: a zero of the same sign; NaN if it was NaN or
    infinite. *)
Definition cleared {prec emax : Z} (v : binary_float prec emax) : binary_float prec emax :=
  if is_finite v then B754_zero (Bsign v) else B754_nan.
(** The same bits, or two zeros (which may differ in sign). *)
Definition same_number {prec emax : Z} (x y : binary_float prec emax) : Prop :=
  x = y \/ exists sx sy, x = B754_zero sx /\ y = B754_zero sy.
(** ** Sums of real numbers, and bounds for rounding errors *)
Fixpoint Rsum (xs : list R) : R := match xs with [] => 0 | x :: xs' => x + Rsum xs' end.
(** weight times update, without rounding *)
Definition exact_share {prec emax : Z} (x : binary_float prec emax * binary_float prec emax) : R := B2R (fst x) * B2R (snd x).
(** The clamped and depressed halting value, without rounding (a halting value that is a number). *)
Definition ideal_value (prec emax : Z) {Hp : Prec_gt_0 prec} {Hm : Prec_lt_emax prec emax} (d : pyfloat)
  (v : binary_float prec emax) : R :=
  B2R (f_of_py d : binary_float prec emax) * Rmin 1 (Rmax 0 (B2R v)).
(** Adding [n] products of total absolute value [tot] to [a], one after the other: how large the
    results can become, and how far they can be from the exact sum. With [u] the unit roundoff
    2^-prec, the error is about [n u |a| + (n + 1) u tot] and half the smallest positive number
    per product. *)
Definition magnitude_bound (prec emax : Z) (n : nat) (a tot : R) : R :=
  let u := bpow radix2 (- prec) in
  (1 + u) ^ n * Rabs a + (1 + u) ^ S n * tot + INR n * bpow radix2 (SpecFloat.emin prec emax - 1) * (1 + u) ^ n.
Definition error_bound (prec emax : Z) (n : nat) (a tot : R) : R :=
  let u := bpow radix2 (- prec) in
  ((1 + u) ^ n - 1) * Rabs a + ((1 + u) ^ S n - 1) * tot + INR n * bpow radix2 (SpecFloat.emin prec emax - 1) * (1 + u) ^ n.
