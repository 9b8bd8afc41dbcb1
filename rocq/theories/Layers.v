(** * layers/core.py, layers/act.py, frameworks/flax.py *)
From Verif Require Import Base PyTree Tensor Num Utils States Controller.

Section Layers.
  Context {N : numsys}.
  Notation st := (state N).
  Notation tr := (tree (array N)).

  (** What user code can hand back. A controller is told apart from the very object the user
      was given ([ISame]), because layers/core.py:222 tests identity. *)
  Inductive item :=
  | ISame                  (* the controller object passed in *)
  | ICtrl (c : st)         (* another controller object *)
  | IObj (t : tr).         (* anything else, as a pytree *)
  Inductive ret :=
  | RTuple (l : list item)
  | ROther (t : tr).
  Inductive made := MCtrl (c : st) | MOther (t : tr).

  (** The user's layer (layers/core.py:59-141): arbitrary functions that may raise. Extra
      arguments of [make_controller] are part of the function. *)
  Record layer := mkLayer {
    l_make_controller : tr -> scl N -> res made;
    l_run_iteration : st -> tr -> res ret;
    l_setup_lazy : st -> tr -> res unit
  }.

  (** layers/core.py:244-275 [_validate_all_act_updates_committed] *)
  Definition validate_all_committed (c : st) : res unit :=
    _ <- guard (negb (updates_ready_to_commit c)) RuntimeError ;;
    guard (negb (has_cached_updates c)) RuntimeError.

  (** layers/core.py:277-286 [ContractValidationWrapper.make_controller] with 168-197 *)
  Definition validate_made (m : made) : res unit :=
    match m with
    | MOther _ => Err TypeError
    | MCtrl c => guard (negb (Nat.eqb (length (accumulators c)) 0)) RuntimeError
    end.
  Definition wrapped_make_controller (check_errors : bool) (l : layer) (init : tr) (dep : scl N)
    : res made :=
    m <- l_make_controller l init dep ;;
    _ <- (if check_errors then validate_made m else Ok tt) ;;
    Ok m.

  (** layers/core.py:295-305 with 168-176, 199-242. The last check (305) is applied to
      [controller], the argument, not to [new_controller]. *)
  Definition validate_update (controller : st) (update : ret) : res unit :=
    match update with
    | ROther _ => Err TypeError
    | RTuple l =>
        _ <- guard (Nat.eqb (length l) 2) RuntimeError ;;
        match l with
        | IObj _ :: _ => Err TypeError
        | ISame :: _ => Err RuntimeError
        | ICtrl _ :: _ => validate_all_committed controller
        | [] => Err RuntimeError
        end
    end.
  (** layers/core.py:288-308 [ContractValidationWrapper.run_iteration] *)
  Definition wrapped_run_iteration (check_errors : bool) (l : layer) (c : st) (u : tr) : res ret :=
    update <- l_run_iteration l c u ;;
    _ <- (if check_errors then validate_update c update else Ok tt) ;;
    Ok update.

  (** layers/act.py:26-57 [ACTMetaData] and [increase_counter] *)
  Record metadata := mkM { num_iterations : Z; max_num_iterations : Z }.
  Definition increase_counter (m : metadata) : metadata :=
    mkM (num_iterations m + 1) (max_num_iterations m).

  Definition carry := (st * tr * metadata)%type.

  (** layers/act.py:195-203 [_is_act_not_complete] *)
  Definition is_act_not_complete (x : carry) : bool :=
    let '(c, _, m) := x in
    negb (is_completely_halted c) && Z.ltb (num_iterations m) (max_num_iterations m).

  (** How many items Python's iteration over an object yields; [None] if it cannot be iterated. *)
  Definition iter_length (t : tr) : option nat :=
    match t with
    | Leaf a => match a_shape a with [] => None | n :: _ => Some n end
    | Node NNone _ => None
    | Node _ cs => Some (length cs)
    end.
  (** Unpacking [controller, state = update] (layers/act.py:217): an object that is not iterable is
      a TypeError, another number of items than two a ValueError. A first component that is not a
      controller, or a second one that is a controller, changes the pytree of the carry: TypeError
      from [while_loop]. *)
  Definition unpack (c : st) (update : ret) : res (st * tr) :=
    match update with
    | RTuple [ISame; IObj u'] => Ok (c, u')
    | RTuple [ICtrl c'; IObj u'] => Ok (c', u')
    | RTuple [_; _] => Err TypeError
    | RTuple _ => Err ValueError
    | ROther t =>
        match iter_length t with
        | None | Some 2 => Err TypeError
        | Some _ => Err ValueError
        end
    end.
  (** layers/act.py:205-220 [_while_loop_adapter_factory] *)
  Definition run_layer_adapter (check_errors : bool) (l : layer) (x : carry) : res carry :=
    let '(c, u, m) := x in
    update <- wrapped_run_iteration check_errors l c u ;;
    '(c', u') <- unpack c update ;;
    Ok (c', u', increase_counter m).

  (** ** [jax.lax.while_loop] *)

  (** Every leaf of the carry must be a JAX value: a string is a TypeError. *)
  Definition leaf_ok (l : pyleaf N) : bool := match l with LStr _ => false | _ => true end.
  Definition carry_leaves_ok (c : st) : bool := forallb leaf_ok (fst (flatten_controller c)).
  (** Abstract value of a leaf, and of a carry: what [while_loop] compares between the input and
      the output of the body. *)
  Inductive aleaf := AArr (sh : list nat) (d : dtype) | AScl | AStr.
  Definition abstract_leaf (l : pyleaf N) : aleaf :=
    match l with LArr a => AArr (a_shape a) (a_dt a) | LScl _ => AScl | LStr _ => AStr end.
  Definition abstract_ctrl (c : st) : list aleaf * state_treedef :=
    (map abstract_leaf (fst (flatten_controller c)), snd (flatten_controller c)).
  Definition abstract_user (u : tr) : list aleaf * treedef :=
    (map (fun a => AArr (a_shape a) (a_dt a)) (leaves u), structure u).
  Definition aleaf_eq_dec (a b : aleaf) : {a = b} + {a <> b}.
  Proof. decide equality; [apply dtype_eq_dec | apply shape_eq_dec]. Defined.
  Definition tdl_eqb (a b : list treedef) : bool :=
    td_eqb (Node NTuple a) (Node NTuple b).
  Definition same_abstract (x y : carry) : bool :=
    let '(c, u, _) := x in
    let '(c', u', _) := y in
    let '(al, (aux, ns)) := abstract_ctrl c in
    let '(al', (aux', ns')) := abstract_ctrl c' in
    let '(ul, utd) := abstract_user u in
    let '(ul', utd') := abstract_user u' in
    (if list_eq_dec aleaf_eq_dec al al' then true else false) && tdl_eqb aux aux'
    && shape_eqb ns ns'
    && (if list_eq_dec aleaf_eq_dec ul ul' then true else false) && td_eqb utd utd'.

  (** The carry is flattened and rebuilt before each call of the body and at the end. *)
  Definition rebuild (x : carry) : res carry :=
    let '(c, u, m) := x in
    let '(flat, td) := flatten_controller c in
    c' <- unflatten_controller td flat ;;
    u' <- unflatten (structure u) (leaves u) ;;
    Ok (c', u', m).

  (** [while cond(x): x = body(x)]; running out of fuel is an error value. *)
  Fixpoint while_fuel (fuel : nat) (body : carry -> res carry) (x : carry) : res carry :=
    y <- rebuild x ;;
    if is_act_not_complete y then
      match fuel with
      | 0 => Err NotImplementedError
      | S fuel' => z <- body y ;; while_fuel fuel' body z
      end
    else Ok y.
  Definition remaining (x : carry) : nat :=
    let '(_, _, m) := x in Z.to_nat (max_num_iterations m - num_iterations m).
  (** The body is traced once before the loop starts, even if the loop runs zero times: a Python
      exception in it surfaces, and the abstract values of its result must equal those of its
      input. Simplification: the body is traced on the initial values themselves; weak types are
      not modelled. *)
  Definition while_loop (body : carry -> res carry) (x : carry) : res carry :=
    let '(c, _, _) := x in
    _ <- guard (carry_leaves_ok c) TypeError ;;
    x0 <- rebuild x ;;
    y <- body x0 ;;
    _ <- guard (same_abstract x y) TypeError ;;
    while_fuel (remaining x) body x.

  (** layers/act.py:223-289 [execute_act] (defaults: depression_constant=1.0,
      max_iterations=10, check_for_errors=True). Without checks a result of [make_controller]
      that is not a controller fails when [is_completely_halted] is read. *)
  Definition execute_act (l : layer) (initial_state : tr) (dep : scl N) (max_iterations : Z)
    (check_for_errors : bool) : res (st * tr) :=
    m <- wrapped_make_controller check_for_errors l initial_state dep ;;
    match m with
    | MOther _ => Err AttributeError
    | MCtrl c =>
        _ <- l_setup_lazy l c initial_state ;;
        '(c', u', _) <- while_loop (run_layer_adapter check_for_errors l)
                          (c, initial_state, mkM 0 max_iterations) ;;
        Ok (c', u')
    end.

  (** frameworks/flax.py:42-46 [setup_lazy_parameters] of a flax layer: one iteration whose
      result is thrown away, if the parameters are still mutable. *)
  Definition flax_setup_lazy (params_mutable : bool) (run : st -> tr -> res ret) (c : st) (u : tr)
    : res unit :=
    if params_mutable then _ <- run c u ;; Ok tt else Ok tt.
  (** frameworks/flax.py:7: a flax layer is an [AbstractACTTemplate] with that method. *)
  Definition flax_layer (params_mutable : bool) (make : tr -> scl N -> res made)
    (run : st -> tr -> res ret) : layer :=
    mkLayer make run (flax_setup_lazy params_mutable run).
  (** frameworks/flax.py:22-40 [setup] when the user did not override it *)
  Definition flax_setup_default : res unit := Err NotImplementedError.
End Layers.
Arguments layer N : clear implicits.
Arguments item N : clear implicits.
Arguments ret N : clear implicits.
Arguments made N : clear implicits.
