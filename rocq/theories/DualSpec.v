(** * Vocabulary for statements about derivatives. Nothing here models repository code. *)
From Coq Require Import QArith Qcanon.
From Verif Require Import Base PyTree Tensor Num Utils States Controller Layers Wf Spec History LayerSpec Jit JitSpec Dual TraceSpec.
Open Scope Qc_scope.

(** [X] is differentiable at 0, has value [x] and slope [x'] there, and the error of its tangent is at most
    a constant times the square of the distance. *)
Definition derivative (X : Qc -> Qc) (x x' : Qc) : Prop :=
  exists K delta, 0 < delta /\ forall t, - delta < t -> t < delta ->
    x + t * x' - K * (t * t) <= X t /\ X t <= x + t * x' + K * (t * t).
(** for all [t] close to zero *)
Definition near (P : Qc -> Prop) : Prop := exists delta, 0 < delta /\ forall t, - delta < t -> t < delta -> P t.

(** The values in a controller (or call, or tree) of pairs. *)
Definition values (s : state DualNum) : state QcNum := move (N := DualNum) (M := QcNum) fst fst s.
Definition value_call (c : call DualNum) : call QcNum := move_call (N := DualNum) (M := QcNum) fst c.
Definition value_tree (t : tree (array DualNum)) : tree (array QcNum) := move_tree (N := DualNum) (M := QcNum) fst t.
Definition value_array (a : array DualNum) : array QcNum := move_array (N := DualNum) (M := QcNum) fst a.
Definition value_item (i : item DualNum) : item QcNum := move_item (N := DualNum) (M := QcNum) fst fst i.
Definition value_ret (r : ret DualNum) : ret QcNum := move_ret (N := DualNum) (M := QcNum) fst fst r.
(** Everything moved a distance [t] in the direction of the tangents. *)
Definition along (t : Qc) (x : dual) : Qc := fst x + t * snd x.
Definition moved (t : Qc) (s : state DualNum) : state QcNum := move (N := DualNum) (M := QcNum) (along t) (along t) s.
Definition moved_call (t : Qc) (c : call DualNum) : call QcNum := move_call (N := DualNum) (M := QcNum) (along t) c.
(** Pairs whose tangents are zero, and tangents multiplied by a number. *)
Definition constant (x : Qc) : dual := (x, 0).
Definition constants (s : state QcNum) : state DualNum := move (N := QcNum) (M := DualNum) constant constant s.
Definition constant_call (c : call QcNum) : call DualNum := move_call (N := QcNum) (M := DualNum) constant c.
Definition stretch (k : Qc) (x : dual) : dual := (fst x, k * snd x).
Definition stretched (k : Qc) (s : state DualNum) : state DualNum := move (N := DualNum) (M := DualNum) (stretch k) (stretch k) s.
Definition stretched_call (k : Qc) (c : call DualNum) : call DualNum := move_call (N := DualNum) (M := DualNum) (stretch k) c.

(** ** Numbers that depend on a parameter

    A curve, with the pair of its value and slope at zero. [CurveNum] makes controllers, calls and trees of
    curves out of the ordinary definitions; its operations are pointwise. *)
Definition curve : Type := ((Qc -> Qc) * dual)%type.
Definition smooth (c : curve) : Prop := derivative (fst c) (fst (snd c)) (snd (snd c)).
Definition pointwise (f : Qc -> Qc -> Qc) (g : dual -> dual -> dual) (x y : curve) : curve :=
  (fun t => f (fst x t) (fst y t), g (snd x) (snd y)).
Definition CurveNum : numsys := {|
  val := curve; scl := curve;
  v_zero := (fun _ => 0, (0, 0)); v_one := (fun _ => 1, (1, 0));
  v_add := pointwise Qcplus (v_add DualNum); v_sub := pointwise Qcminus (v_sub DualNum);
  v_mul := pointwise Qcmult (v_mul DualNum);
  v_ltb := fun x y => v_ltb DualNum (snd x) (snd y);
  v_leb := fun x y => v_leb DualNum (snd x) (snd y);
  v_eqb := fun x y => v_eqb DualNum (snd x) (snd y);
  v_max := pointwise Qcmax' (v_max DualNum); v_min := pointwise Qcmin' (v_min DualNum);
  v_close := fun x y => v_close DualNum (snd x) (snd y);
  v_of_scl := fun s => s;
  s_one_sub := fun s => (fun t => 1 - fst s t, s_one_sub DualNum (snd s));
  s_zero := (fun _ => 0, (0, 0)); s_one := (fun _ => 1, (1, 0));
  s_leb := fun x y => s_leb DualNum (snd x) (snd y)
|}.
(** The controller (call, tree) at parameter [t], and the one handed to [jax.jvp]. *)
Definition at_time (t : Qc) (c : curve) : Qc := fst c t.
Definition state_at (t : Qc) (s : state CurveNum) : state QcNum := move (N := CurveNum) (M := QcNum) (at_time t) (at_time t) s.
Definition call_at (t : Qc) (c : call CurveNum) : call QcNum := move_call (N := CurveNum) (M := QcNum) (at_time t) c.
Definition tree_at (t : Qc) (x : tree (array CurveNum)) : tree (array QcNum) := move_tree (N := CurveNum) (M := QcNum) (at_time t) x.
Definition dual_state (s : state CurveNum) : state DualNum := move (N := CurveNum) (M := DualNum) snd snd s.
Definition dual_call (c : call CurveNum) : call DualNum := move_call (N := CurveNum) (M := DualNum) snd c.
Definition dual_tree (x : tree (array CurveNum)) : tree (array DualNum) := move_tree (N := CurveNum) (M := DualNum) snd x.
(** All their numbers are smooth. *)
Definition smooth_array (a : array CurveNum) : Prop := Forall smooth (a_data a).
Definition smooth_tree (x : tree (array CurveNum)) : Prop := Forall smooth_array (leaves x).
Definition smooth_dict (d : dict (tree (array CurveNum))) : Prop := forall k x, dget k d = Some x -> smooth_tree x.
Definition smooth_state (s : state CurveNum) : Prop :=
  smooth (epsilon s) /\ smooth (depression_constant s) /\ smooth_dict (defaults s).
Definition smooth_call (c : call CurveNum) : Prop :=
  match c with CCache _ item => smooth_tree item | CIter h => smooth_array h | CReset => True end.
(** A straight line (a constant function, not just extensionally, if its slope is zero). *)
Definition line (x : dual) : curve := (if Qc_eq_dec (snd x) 0 then fun _ => fst x else fun t => along t x, x).

(** A halting value is at a corner of the clamp, unless it stays what it is. *)
Definition corner_free (c : curve) : Prop :=
  fst (snd c) <> 0 /\ fst (snd c) <> 1 \/ (snd (snd c) = 0 /\ near (fun t => fst c t = fst (snd c))).
(** Element [i] is never at a corner: whenever an iteration is made while it is running, its halting value is
    not at a corner and its cumulative probability does not arrive exactly at the halting threshold. *)
Definition off_corners (s : state CurveNum) (cs : list (call CurveNum)) (i : nat) : Prop :=
  forall before h after, cs = before ++ CIter h :: after ->
  let s1 := run (dual_state s) (map dual_call before) in
  (exists s2, apply_call s1 (dual_call (CIter h)) = Ok s2) ->
  forall (p : dual) (v : curve),
    nth_error (data (halted_batches s1)) i = Some false -> nth_error (a_data (probabilities s1)) i = Some p -> nth_error (a_data h) i = Some v ->
    corner_free v /\
    fst p + fst (depression_constant s1) * clamp (fst (snd v)) <> 1 - fst (epsilon s1).

(** Number [j] of leaf [l] of accumulator [k]. *)
Definition entry {N} (s : state N) (k : string) (l j : nat) : option (val N) := update_at k l j (accumulators s).
(** A number read from the controllers [Q t], and from the result [D] of [jax.jvp]: the tangent in [D] is its
    derivative at 0. *)
Definition has_derivative (get : forall N, state N -> option (val N)) (D : state DualNum) (Q : Qc -> state QcNum) : Prop :=
  forall x : dual, get DualNum D = Some x -> exists X : Qc -> Qc, (forall t, get QcNum (Q t) = Some (X t)) /\ derivative X (fst x) (snd x).
(** The same close to 0. *)
Definition has_derivative_near (get : forall N, state N -> option (val N)) (D : state DualNum) (Q : Qc -> state QcNum) : Prop :=
  forall x : dual, get DualNum D = Some x -> exists X : Qc -> Qc, near (fun t => get QcNum (Q t) = Some (X t)) /\ derivative X (fst x) (snd x).
(** Entry [j] of leaf [l] of accumulator [k] belongs to batch element [i]. *)
Definition belongs {N} (s : state N) (k : string) (l j i : nat) : Prop :=
  exists T a R, dget k (accumulators s) = Some T /\ nth_error (leaves T) l = Some a /\ a_shape a = batch_shape s ++ R /\ (j / size R)%nat = i.
(** Everything about batch element [i]: close to 0 it is halted as in [D], and its numbers have the tangents in [D] as derivatives. *)
Definition differentiated (i : nat) (D : state DualNum) (Q : Qc -> state QcNum) : Prop :=
  near (fun t => nth_error (data (halted_batches (Q t))) i = nth_error (data (halted_batches D)) i) /\
  has_derivative (fun N s => nth_error (a_data (probabilities s)) i) D Q /\
  has_derivative (fun N s => nth_error (a_data (residuals s)) i) D Q /\
  has_derivative (fun N s => nth_error (a_data (iterations s)) i) D Q /\
  forall k l j, belongs D k l j i -> has_derivative (fun N s => entry s k l j) D Q.
(** Every number of the controller. *)
Definition differentiated_near (D : state DualNum) (Q : Qc -> state QcNum) : Prop :=
  near (fun t => halted_batches (Q t) = halted_batches D) /\
  (forall i, has_derivative_near (fun N s => nth_error (a_data (probabilities s)) i) D Q) /\
  (forall i, has_derivative_near (fun N s => nth_error (a_data (residuals s)) i) D Q) /\
  (forall i, has_derivative_near (fun N s => nth_error (a_data (iterations s)) i) D Q) /\
  forall k l j, has_derivative_near (fun N s => entry s k l j) D Q.

(** The same hypothesis for a controller and calls of pairs, moved along straight lines. *)
Definition clear_of_corners (s : state DualNum) (cs : list (call DualNum)) (i : nat) : Prop :=
  forall before h after, cs = before ++ CIter h :: after ->
  let s1 := run s before in
  (exists s2, apply_call s1 (CIter h) = Ok s2) ->
  forall p v : dual,
    nth_error (data (halted_batches s1)) i = Some false -> nth_error (a_data (probabilities s1)) i = Some p -> nth_error (a_data h) i = Some v ->
    (fst v <> 0 /\ fst v <> 1 \/ snd v = 0) /\
    fst p + fst (depression_constant s1) * clamp (fst v) <> 1 - fst (epsilon s1).

(** ** Differentiable layers

    The parts of a documented layer (the next user state, the updates, the halting probabilities), at parameter
    [t] of its weights ([.._q t]), as evaluated by [jax.jvp] ([.._d]), and as functions from curves to curves
    ([.._c]); the third explains the other two: the tangents computed are the derivatives. *)
Definition array_at (t : Qc) (a : array CurveNum) : array QcNum := move_array (N := CurveNum) (M := QcNum) (at_time t) a.
Definition dict_at (t : Qc) (d : dict (tree (array CurveNum))) : dict (tree (array QcNum)) := move_dict (N := CurveNum) (M := QcNum) (at_time t) d.
Definition dual_array (a : array CurveNum) : array DualNum := move_array (N := CurveNum) (M := DualNum) snd a.
Definition dual_dict (d : dict (tree (array CurveNum))) : dict (tree (array DualNum)) := move_dict (N := CurveNum) (M := DualNum) snd d.
Record parts (N : numsys) := mkParts {
  p_next : tree (array N) -> tree (array N);
  p_updates : tree (array N) -> dict (tree (array N));
  p_halting : tree (array N) -> array N
}.
Arguments p_next {N}. Arguments p_updates {N}. Arguments p_halting {N}.
Definition differentiable (pc : parts CurveNum) (pq : Qc -> parts QcNum) (pd : parts DualNum) : Prop :=
  forall u, smooth_tree u ->
    smooth_tree (p_next pc u) /\ smooth_dict (p_updates pc u) /\ smooth_array (p_halting pc u) /\
    (forall t, p_next (pq t) (tree_at t u) = tree_at t (p_next pc u) /\
               p_updates (pq t) (tree_at t u) = dict_at t (p_updates pc u) /\
               p_halting (pq t) (tree_at t u) = array_at t (p_halting pc u)) /\
    p_next pd (dual_tree u) = dual_tree (p_next pc u) /\
    p_updates pd (dual_tree u) = dual_dict (p_updates pc u) /\
    p_halting pd (dual_tree u) = dual_array (p_halting pc u).
(** The layer made of such parts, its calls, and its user states. *)
Definition layer_of {N} (c0 : state N) (p : parts N) (lazy : state N -> tree (array N) -> res unit) : layer N :=
  simple_layer c0 (p_next p) (p_updates p) (p_halting p) lazy.
Definition calls_of {N} (p : parts N) (n : nat) (u : tree (array N)) : list (call N) :=
  loop_calls (p_next p) (p_updates p) (p_halting p) n u.
Definition state_after {N} (p : parts N) (n : nat) (u : tree (array N)) : tree (array N) := nth_state (p_next p) n u.

(** ** Layers on values and on pairs

    [l'] does to values what [l] does to the values in pairs, for controllers whose settings are [eps], [dep];
    and the controllers handed back have these settings again. *)
Definition same_values (eps dep : dual) (l : layer DualNum) (l' : layer QcNum) : Prop :=
  forall (c : state DualNum) u, epsilon c = (eps : scl DualNum) -> depression_constant c = (dep : scl DualNum) ->
    l_run_iteration l' (values c) (value_tree u) = outcome_map value_ret (l_run_iteration l c u) /\
    forall r, l_run_iteration l c u = Ok r -> returns_settings (N := DualNum) eps dep r.

(** ** Adaptive computation time, differentiated *)
Definition inside (h : Qc) : Qc :=
  if Qclt_le_dec h 0 then 0 else if Qclt_le_dec 1 h then 0
  else if Qc_eq_dec h 0 then Q2Qc (1 # 2) else if Qc_eq_dec h 1 then Q2Qc (1 # 2) else 1.
(** tangents of the effective halting probabilities *)
Definition effective_tangents (dep : dual) (vs : list dual) : list Qc :=
  map (fun v => fst dep * (inside (fst v) * snd v) + snd dep * clamp (fst v)) vs.
