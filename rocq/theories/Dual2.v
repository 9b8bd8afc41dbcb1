(** * Two tangents at once (for C96): numbers [(v, (t1, t2))], with the rules of Dual.v for each tangent. Models the same code as Dual.v
    (core/controller.py, core/viewer.py, layers/act.py under [jax.jvp] along two directions). *)
From Coq Require Import QArith Qcanon.
From Verif Require Import Base PyTree Tensor Num States Controller History Jit Dual.
Open Scope Qc_scope.
Definition two : Type := (Qc * (Qc * Qc))%type.
(** The number with the tangent [a * t1 + b * t2]; [combine 1 0] has the first tangent, [combine 0 1] the second. *)
Definition combine (a b : Qc) (x : two) : dual := (fst x, a * fst (snd x) + b * snd (snd x)).
Definition both (f : dual -> dual -> dual) (x y : two) : two :=
  (fst (f (combine 1 0 x) (combine 1 0 y)), (snd (f (combine 1 0 x) (combine 1 0 y)), snd (f (combine 0 1 x) (combine 0 1 y)))).
Definition both1 (f : dual -> dual) (x : two) : two :=
  (fst (f (combine 1 0 x)), (snd (f (combine 1 0 x)), snd (f (combine 0 1 x)))).
Definition TwoNum : numsys := {|
  val := two; scl := two;
  v_zero := (0, (0, 0)); v_one := (1, (0, 0));
  v_add := both (v_add DualNum); v_sub := both (v_sub DualNum); v_mul := both (v_mul DualNum);
  v_ltb := fun x y => Qcltb (fst x) (fst y); v_leb := fun x y => Qcleb (fst x) (fst y); v_eqb := fun x y => Qceqb (fst x) (fst y);
  v_max := both (v_max DualNum); v_min := both (v_min DualNum);
  v_close := fun x y => Qcclose (fst x) (fst y);
  v_of_scl := fun s => s; s_one_sub := both1 (s_one_sub DualNum);
  s_zero := (0, (0, 0)); s_one := (1, (0, 0)); s_leb := fun x y => Qcleb (fst x) (fst y)
|}.
(** A controller and a call whose numbers have the combined tangents. *)
Definition combined (a b : Qc) (s : state TwoNum) : state DualNum := move (N := TwoNum) (M := DualNum) (combine a b) (combine a b) s.
Definition combined_call (a b : Qc) (c : call TwoNum) : call DualNum := move_call (N := TwoNum) (M := DualNum) (combine a b) c.
