(** * Two IEEE-754 formats in one controller: what JAX computes when the statistics are kept in the core
    dtype and accumulators in a larger one.

    The core dtype is an argument of the builder (core/builder.py:411-449), the dtype of an accumulator
    that of the tensor it was defined with (core/builder.py:277-312); core/controller.py:187-233 multiplies the
    halting probabilities into an update and adds the product to the accumulator, and JAX promotes the
    operands of these operations to the larger format first. Elements of arrays of the core dtype
    are [Nar x], elements of arrays of the larger dtype [Wid y]; where the two meet, the operands are
    widened and the result is [Wid]. This models JAX, not code of the repository.
    Simplification: a Python scalar and the constants 0 and 1 are numbers of the core format. They meet
    accumulators in the source only as the fill value of [define_accumulator_by_shape], which
    this instance does not describe for the larger format, and as masks, where widening is exact. *)
From Coq Require Import ZArith.
From Flocq Require Import Core BinarySingleNaN.
From Verif Require Import Base Num FloatNum Jit.

Section Mixed.
  Context (pn en pw ew : Z) {Hpn : Prec_gt_0 pn} {Hmn : Prec_lt_emax pn en} {Hpw : Prec_gt_0 pw} {Hmw : Prec_lt_emax pw ew}.
  Inductive mixed := Nar (x : binary_float pn en) | Wid (y : binary_float pw ew).
  (** conversion to the larger format *)
  Definition to_wide (v : mixed) : binary_float pw ew := match v with Nar x => f_conv pw ew x | Wid y => y end.
  (** JAX's promotion: two operands of the core format stay there, else both are widened *)
  Definition mixed_bin (f : binary_float pn en -> binary_float pn en -> binary_float pn en)
      (g : binary_float pw ew -> binary_float pw ew -> binary_float pw ew) (a b : mixed) : mixed :=
    match a, b with Nar x, Nar y => Nar (f x y) | _, _ => Wid (g (to_wide a) (to_wide b)) end.
  Definition mixed_cmp (f : binary_float pn en -> binary_float pn en -> bool)
      (g : binary_float pw ew -> binary_float pw ew -> bool) (a b : mixed) : bool :=
    match a, b with Nar x, Nar y => f x y | _, _ => g (to_wide a) (to_wide b) end.
  Definition MixedNum : numsys := {|
    val := mixed; scl := pyfloat;
    v_zero := Nar f_zero; v_one := Nar f_one;
    v_add := mixed_bin f_add f_add; v_sub := mixed_bin f_sub f_sub; v_mul := mixed_bin f_mul f_mul;
    v_ltb := mixed_cmp Bltb Bltb; v_leb := mixed_cmp Bleb Bleb; v_eqb := mixed_cmp Beqb Beqb;
    v_max := mixed_bin f_max f_max; v_min := mixed_bin f_min f_min;
    v_close := mixed_cmp (f_close pn en) (f_close pw ew);
    v_of_scl := fun x => Nar (f_of_py x);
    s_one_sub := Bminus mode_NE Bone;
    s_zero := B754_zero false; s_one := Bone; s_leb := Bleb
  |}.
End Mixed.
Arguments Nar {pn en pw ew} x.
Arguments Wid {pn en pw ew} y.
Arguments to_wide {pn en pw ew Hpw Hmw} v.
