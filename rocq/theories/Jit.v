(** * Compiled execution: what [jax.jit] and [jax.lax.while_loop] do to a controller.

    core/controller.py, core/viewer.py and layers/act.py hand controllers to compiled code as pytrees
    (controller.py:446-455, states.py:182-202, layers/act.py:281). The leaves of a controller are its
    arrays and two Python floats, [epsilon] and [depression_constant]. In the default (32 bit) mode of
    JAX a Python float that enters compiled code becomes a weakly typed float32 scalar: it is rounded to
    float32, arithmetic between it and the Python int 1 ([1 - epsilon], controller.py:115-117) is done
    in float32, and it is converted to the dtype of an array it meets. The arrays are the same.
    Controllers returned by compiled code keep the float32 scalars.
    Simplification: compiled float operations round as the eager ones do (no fused operations). With
    jax_enable_x64 the scalars become float64, and then [FloatNum] describes compiled code as well. *)
From Coq Require Import ZArith.
From Flocq Require Import Core BinarySingleNaN.
From Verif Require Import Base PyTree Tensor Num FloatNum States Controller History Layers.

(** ** Controllers moved from one arithmetic to another: arrays by [f], the two scalars by [g] *)
Section Move.
  Context {N M : numsys} (f : val N -> val M) (g : scl N -> scl M).
  Definition move_array (a : array N) : array M := mkA (a_dt a) (tensor_map f (a_ten a)).
  Definition move_tree (t : tree (array N)) : tree (array M) := tmap move_array t.
  Definition move_dict (d : dict (tree (array N))) : dict (tree (array M)) :=
    map (fun kv => (fst kv, move_tree (snd kv))) d.
  Definition move (s : state N) : state M :=
    mkState (g (epsilon s)) (move_array (iterations s)) (move_array (residuals s)) (move_array (probabilities s))
      (move_dict (defaults s)) (move_dict (accumulators s)) (move_dict (updates s))
      (g (depression_constant s)) (error_mode s).
  Definition move_call (c : call N) : call M :=
    match c with
    | CCache name item => CCache name (move_tree item)
    | CIter h => CIter (move_array h)
    | CReset => CReset
    end.
  Definition move_item (i : item N) : item M :=
    match i with ISame => ISame | ICtrl c => ICtrl (move c) | IObj t => IObj (move_tree t) end.
  Definition move_ret (r : ret N) : ret M :=
    match r with RTuple is => RTuple (map move_item is) | ROther t => ROther (move_tree t) end.
End Move.

(** ** Traced scalars *)

(** Conversion between binary formats, rounding to nearest even. *)
Definition f_conv {p1 e1 : Z} (p2 e2 : Z) {Hp : Prec_gt_0 p2} {Hm : Prec_lt_emax p2 e2}
  (x : binary_float p1 e1) : binary_float p2 e2 :=
  match x with
  | B754_zero s => B754_zero s
  | B754_infinity s => B754_infinity s
  | B754_nan => B754_nan
  | B754_finite s m e _ => binary_normalize p2 e2 Hp Hm mode_NE (cond_Zopp s (Zpos m)) e s
  end.
(** A weakly typed float32 scalar, and how a Python float becomes one. *)
Definition weak32 := binary_float 24 128.
Definition trace_scalar (x : pyfloat) : weak32 := f_conv 24 128 x.

Section Jit.
  Context (prec emax : Z) {Hp : Prec_gt_0 prec} {Hm : Prec_lt_emax prec emax}.
  (** The arithmetic inside compiled code: arrays as in [FloatNum], scalars are float32. *)
  Definition JitNum : numsys := {|
    val := binary_float prec emax; scl := weak32;
    v_zero := f_zero; v_one := f_one;
    v_add := f_add; v_sub := f_sub; v_mul := f_mul;
    v_ltb := Bltb; v_leb := Bleb; v_eqb := Beqb;
    v_max := f_max; v_min := f_min; v_close := f_close prec emax;
    v_of_scl := f_conv prec emax;
    s_one_sub := Bminus mode_NE Bone;
    s_zero := B754_zero false; s_one := Bone; s_leb := Bleb
  |}.
  Notation F := (FloatNum prec emax).
  Notation same_bits := (fun x : binary_float prec emax => x).
  (** What compiled code sees of an array, a pytree, a controller, the arguments of a call. *)
  Definition jit_array : array F -> array JitNum := move_array (N := F) (M := JitNum) same_bits.
  Definition jit_tree : tree (array F) -> tree (array JitNum) := move_tree (N := F) (M := JitNum) same_bits.
  Definition into_jit : state F -> state JitNum := move (N := F) (M := JitNum) same_bits trace_scalar.
  Definition jit_call : call F -> call JitNum := move_call (N := F) (M := JitNum) same_bits.
  Definition jit_ret : ret F -> ret JitNum := move_ret (N := F) (M := JitNum) same_bits trace_scalar.

  (** layers/act.py:223-289 [execute_act] in the default mode: [make_controller] and
      [setup_lazy_parameters] are run by Python ([l]), the iterations are compiled ([l']: the same
      layer, whose [run_iteration] is traced). *)
  Definition execute_act_compiled (l : layer F) (l' : layer JitNum) (initial_state : tree (array F)) (dep : pyfloat)
    (max_iterations : Z) (check_for_errors : bool) : res (state JitNum * tree (array JitNum)) :=
    m <- wrapped_make_controller check_for_errors l initial_state (dep : scl F) ;;
    match m with
    | MOther _ => Err AttributeError
    | MCtrl c =>
        _ <- l_setup_lazy l c initial_state ;;
        '(c', u', _) <- while_loop (run_layer_adapter check_for_errors l')
                          (into_jit c, jit_tree initial_state, mkM 0 max_iterations) ;;
        Ok (c', u')
    end.
End Jit.
Arguments jit_array {prec emax Hp Hm} _.
Arguments jit_tree {prec emax Hp Hm} _.
Arguments into_jit {prec emax Hp Hm} _.
Arguments jit_call {prec emax Hp Hm} _.
Arguments jit_ret {prec emax Hp Hm} _.
Arguments execute_act_compiled {prec emax Hp Hm} l l' initial_state dep max_iterations check_for_errors.
