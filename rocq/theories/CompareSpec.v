(** * Vocabulary for statements about comparing pytrees of numbers (C87). Nothing here models repository
    code. [B2R x] is the real number the finite float [x] stands for. *)
From Coq Require Import ZArith Reals.
From Coq Require Import QArith Qcanon.
From Flocq Require Import Core BinarySingleNaN.
From Verif Require Import Base PyTree Tensor Num FloatNum Utils Wf.
Close Scope Qc_scope. Close Scope Q_scope. Close Scope R_scope. Close Scope Z_scope. Open Scope list_scope. Open Scope nat_scope.

(** Two leaves whose entries are related one by one; other objects have to be the same object. *)
Definition entries_related {N} (rel : val N -> val N -> Prop) (l1 l2 : eleaf N) : Prop :=
  match l1, l2 with
  | EArr n1 a1, EArr n2 a2 => n1 = n2 /\
      forall j x y, nth_error (a_data a1) j = Some x -> nth_error (a_data a2) j = Some y -> rel x y
  | EObj t1 c1, EObj t2 c2 => t1 = t2 /\ c1 = c2
  | _, _ => False
  end.
(** |x - y| <= 10^-8 + 10^-5 |y|, over the rational numbers *)
Definition near (x y : Qc) : Prop :=
  let d := (Q2Qc (1 # 100000000) + Q2Qc (1 # 100000) * (if Qclt_le_dec y 0 then - y else y))%Qc in
  (x - y <= d)%Qc /\ (y - x <= d)%Qc.

Section Formats.
  Context (prec emax : Z) {Hp : Prec_gt_0 prec} {Hm : Prec_lt_emax prec emax}.
  Notation bf := (binary_float prec emax).
  Local Open Scope R_scope.
  (** The constants 1e-8 and 1e-5 as numbers of the format. *)
  Definition atol : R := B2R (f_of_py (py_div 1 100000000) : bf).
  Definition rtol : R := B2R (f_of_py (py_div 1 100000) : bf).
  (** The decision [b] about the numbers [x] and [y]: a NaN is not equal to anything, an infinity only to
      itself. For finite numbers, with the unit roundoff u = 2^-prec and half the smallest positive number
      h: equal numbers are accepted; a distance of at most (1-u)^2 (atol + rtol |y|) - h is accepted; an
      accepted distance is at most ((1+u)^2 (atol + rtol |y|) + (1+u) h) / (1-u). *)
  Record float_decision (x y : bf) (b : bool) : Prop := {
    fd_nan : is_nan x = true \/ is_nan y = true -> b = false;
    fd_inf : is_finite x = false \/ is_finite y = false -> (b = true <-> x = y /\ is_nan x = false);
    fd_equal : is_finite x = true -> is_finite y = true -> B2R x = B2R y -> b = true;
    fd_accepts : is_finite x = true -> is_finite y = true ->
      let u := bpow radix2 (- prec) in let h := bpow radix2 (SpecFloat.emin prec emax - 1) in
      Rabs (B2R x - B2R y) <= (1 - u) * (1 - u) * (atol + rtol * Rabs (B2R y)) - h -> b = true;
    fd_bound : is_finite x = true -> is_finite y = true -> b = true ->
      let u := bpow radix2 (- prec) in let h := bpow radix2 (SpecFloat.emin prec emax - 1) in
      (1 - u) * Rabs (B2R x - B2R y) <= (1 + u) * (1 + u) * (atol + rtol * Rabs (B2R y)) + (1 + u) * h }.

End Formats.
Definition well_formed_leaf {N} (l : eleaf N) : Prop := match l with EArr _ a => awf a | EObj _ _ => True end.
Definition no_nan_leaf {prec emax : Z} {Hp : Prec_gt_0 prec} {Hm : Prec_lt_emax prec emax} (l : eleaf (FloatNum prec emax)) : Prop :=
  match l with EArr _ a => Forall (fun v : binary_float prec emax => is_nan v = false) (a_data a) | EObj _ _ => True end.
