(** * The IEEE-754 instance of the arithmetic.

    Array elements are floating point numbers of one binary format (precision [prec], exponents
    below [emax], both arbitrary), Python floats are binary64; every operation rounds to nearest,
    ties to even. This models what JAX computes element by element for the operations used in
    core/controller.py, core/viewer.py and core/tensoreditor.py, not code of the repository.
    Simplifications: all arrays of a state share one format; NaN has no sign and no payload;
    subnormal numbers are kept (no flush to zero); which zero [jnp.maximum] returns for zeros of
    opposite signs is fixed (the first). *)
From Coq Require Import ZArith Lia.
From Flocq Require Import Core BinarySingleNaN.
From Verif Require Import Base Num.

#[global] Instance prec64_gt_0 : Prec_gt_0 53.
Proof. reflexivity. Qed.
#[global] Instance prec64_lt_emax : Prec_lt_emax 53 1024.
Proof. reflexivity. Qed.
(** A Python float. *)
Definition pyfloat := binary_float 53 1024.

Section FloatNum.
  Context (prec emax : Z) {Hp : Prec_gt_0 prec} {Hm : Prec_lt_emax prec emax}.
  Notation bf := (binary_float prec emax).

  Definition f_zero : bf := B754_zero false.
  Definition f_one : bf := Bone.
  (** Conversion of a Python float to the format of the arrays. *)
  Definition f_of_py (x : pyfloat) : bf :=
    match x with
    | B754_zero s => B754_zero s
    | B754_infinity s => B754_infinity s
    | B754_nan => B754_nan
    | B754_finite s m e _ => binary_normalize prec emax Hp Hm mode_NE (cond_Zopp s (Zpos m)) e s
    end.
  Definition f_add : bf -> bf -> bf := Bplus mode_NE.
  Definition f_sub : bf -> bf -> bf := Bminus mode_NE.
  Definition f_mul : bf -> bf -> bf := Bmult mode_NE.
  (** [jnp.maximum], [jnp.minimum]: NaN if an operand is NaN *)
  Definition f_max (x y : bf) : bf := if is_nan x then x else if is_nan y then y else if Bltb x y then y else x.
  Definition f_min (x y : bf) : bf := if is_nan x then x else if is_nan y then y else if Bltb y x then y else x.
  (** [jnp.isclose] with its default tolerances *)
  Definition f_int (n : Z) : bf := binary_normalize prec emax Hp Hm mode_NE n 0 false.
  Definition py_div (a b : Z) : pyfloat :=
    Bdiv mode_NE (binary_normalize 53 1024 _ _ mode_NE a 0 false) (binary_normalize 53 1024 _ _ mode_NE b 0 false).
  Definition f_close (x y : bf) : bool :=
    Beqb x y ||
    (is_finite x && is_finite y &&
     Bleb (Babs (f_sub x y)) (f_add (f_of_py (py_div 1 100000000)) (f_mul (f_of_py (py_div 1 100000)) (Babs y)))).

  Definition FloatNum : numsys := {|
    val := bf; scl := pyfloat;
    v_zero := f_zero; v_one := f_one;
    v_add := f_add; v_sub := f_sub; v_mul := f_mul;
    v_ltb := Bltb; v_leb := Bleb; v_eqb := Beqb;
    v_max := f_max; v_min := f_min; v_close := f_close;
    v_of_scl := f_of_py;
    s_one_sub := Bminus mode_NE Bone;
    s_zero := B754_zero false; s_one := Bone; s_leb := Bleb
  |}.
End FloatNum.
Arguments f_zero {prec emax}.
Arguments f_one {prec emax Hp Hm}.
Arguments f_of_py {prec emax Hp Hm} x.
Arguments f_add {prec emax Hp Hm} x y.
Arguments f_sub {prec emax Hp Hm} x y.
Arguments f_mul {prec emax Hp Hm} x y.
Arguments f_max {prec emax} x y.
Arguments f_min {prec emax} x y.

(** float16, bfloat16, float32, float64 *)
#[global] Instance prec16_gt_0 : Prec_gt_0 11. Proof. reflexivity. Qed.
#[global] Instance prec16_lt_emax : Prec_lt_emax 11 16. Proof. reflexivity. Qed.
#[global] Instance precb16_gt_0 : Prec_gt_0 8. Proof. reflexivity. Qed.
#[global] Instance precb16_lt_emax : Prec_lt_emax 8 128. Proof. reflexivity. Qed.
#[global] Instance prec32_gt_0 : Prec_gt_0 24. Proof. reflexivity. Qed.
#[global] Instance prec32_lt_emax : Prec_lt_emax 24 128. Proof. reflexivity. Qed.
Definition Float16 : numsys := FloatNum 11 16.
Definition BFloat16 : numsys := FloatNum 8 128.
Definition Float32 : numsys := FloatNum 24 128.
Definition Float64 : numsys := FloatNum 53 1024.
