(** * Forward-mode differentiation: what [jax.jvp] computes from the code of the repository.

    A user trains a layer by differentiating through the controller; [jax.jvp] evaluates every primitive on
    pairs of a value and a tangent. The code modelled is that of core/controller.py, core/viewer.py and
    layers/act.py, unchanged: the model is parametric in the arithmetic, and this file supplies the arithmetic
    of such pairs, over exact rational numbers.
    - addition, subtraction and multiplication: the rules of [lax.add], [lax.sub] and [lax.mul];
    - comparisons look at values (controller.py:120, 164), and the boolean masks of [lax.select] and of the
      products with them carry no tangent (controller.py:172, 178, 233, 342, 374-376, 401);
    - [jnp.clip(x, 0.0, 1.0)] (controller.py:280) is [lax.max] followed by [lax.min], whose rule splits the
      tangent evenly between arguments that are equal (so the derivative of the clamp is 1/2 at 0 and at 1);
    - [epsilon] and [depression_constant] are leaves of the pytree of a controller (states.py:182-202) and may
      carry tangents.
    Simplification: integer arrays carry tangents like float arrays (JAX gives them none); reverse mode is not
    modelled (JAX refuses it for the [while_loop] of [execute_act]). *)
From Coq Require Import QArith Qcanon.
From Verif Require Import Base Tensor Num.
Open Scope Qc_scope.

Definition dual : Type := (Qc * Qc)%type.

(** [_balanced_eq] of jax/_src/lax/lax.py: the part of the tangent of [x] that reaches the result [z] of
    [max(x, y)] or [min(x, y)]. *)
Definition balanced (x z y : Qc) : Qc :=
  (if Qceqb x z then 1 else 0) / (if Qceqb y z then 1 + 1 else 1).
Definition choose (z : Qc) (x y : dual) : dual :=
  (z, snd x * balanced (fst x) z (fst y) + snd y * balanced (fst y) z (fst x)).

Definition DualNum : numsys := {|
  val := dual; scl := dual;
  v_zero := (0, 0); v_one := (1, 0);
  v_add := fun x y => (fst x + fst y, snd x + snd y);
  v_sub := fun x y => (fst x - fst y, snd x - snd y);
  v_mul := fun x y => (fst x * fst y, snd x * fst y + fst x * snd y);
  v_ltb := fun x y => Qcltb (fst x) (fst y);
  v_leb := fun x y => Qcleb (fst x) (fst y);
  v_eqb := fun x y => Qceqb (fst x) (fst y);
  v_max := fun x y => choose (Qcmax' (fst x) (fst y)) x y;
  v_min := fun x y => choose (Qcmin' (fst x) (fst y)) x y;
  v_close := fun x y => Qcclose (fst x) (fst y);
  v_of_scl := fun s => s;
  s_one_sub := fun s => (1 - fst s, - snd s);
  s_zero := (0, 0); s_one := (1, 0); s_leb := fun x y => Qcleb (fst x) (fst y)
|}.
