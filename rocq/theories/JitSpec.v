(** * Vocabulary: compiled against eager execution. Nothing here models repository code. *)
From Coq Require Import ZArith Reals.
From Flocq Require Import Core BinarySingleNaN.
From Verif Require Import Base PyTree Tensor Num FloatNum States Controller Layers Jit.

(** The controller [s] with other values of epsilon and of the depression constant. *)
Definition with_settings {N} (s : state N) (eps dep : scl N) : state N :=
  mkState eps (iterations s) (residuals s) (probabilities s) (defaults s) (accumulators s) (updates s) dep (error_mode s).
(** The result of a call, converted; an exception stays what it is. *)
Definition outcome_map {A B} (f : A -> B) (r : res A) : res B :=
  match r with Ok a => Ok (f a) | Err e => Err e end.

Section JitSpec.
  Context (prec emax : Z) {Hp : Prec_gt_0 prec} {Hm : Prec_lt_emax prec emax}.
  Notation bf := (binary_float prec emax).
  (** The number cumulative probabilities are compared with by a controller whose epsilon is the Python
      float [eps]: the float64 difference 1 - eps, converted to the dtype of the arrays. *)
  Definition eager_threshold (eps : pyfloat) : bf := f_of_py (Bminus mode_NE Bone eps).
  (** In compiled code: eps is converted to float32, the difference is computed in float32 and converted. *)
  Definition compiled_threshold (eps : pyfloat) : bf :=
    f_conv prec emax (Bminus mode_NE (Bone : weak32) (trace_scalar eps)).
  (** Epsilon makes no difference: the two thresholds are the same number. *)
  Definition epsilon_survives (eps : pyfloat) : Prop := B2R (eager_threshold eps) = B2R (compiled_threshold eps).
  (** The depression constant, as a number of the arrays' dtype, is the same in both. *)
  Definition depression_survives (dep : pyfloat) : Prop := (f_of_py dep : bf) = f_conv prec emax (trace_scalar dep).
End JitSpec.

(** The controllers in what [run_iteration] returns have the settings [eps], [dep]. *)
Definition returns_settings {N} (eps dep : scl N) (r : ret N) : Prop :=
  match r with
  | RTuple is => Forall (fun i => match i with ICtrl c => epsilon c = eps /\ depression_constant c = dep | _ => True end) is
  | ROther _ => True
  end.
(** [l'] does to traced values what [l] does to the values, for controllers with the settings [eps],
    [dep]; and the controllers handed back have these settings again. *)
Definition same_code {prec emax : Z} {Hp : Prec_gt_0 prec} {Hm : Prec_lt_emax prec emax} (eps dep : pyfloat)
  (l : layer (FloatNum prec emax)) (l' : layer (JitNum prec emax)) : Prop :=
  forall (c : state (FloatNum prec emax)) u, epsilon c = (eps : scl (FloatNum prec emax)) -> depression_constant c = (dep : scl (FloatNum prec emax)) ->
    l_run_iteration l' (into_jit c) (jit_tree u) = outcome_map jit_ret (l_run_iteration l c u) /\
    forall r, l_run_iteration l c u = Ok r -> returns_settings (N := FloatNum prec emax) eps dep r.
