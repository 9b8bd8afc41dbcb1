(** * core/builder.py

    A [ControllerBuilder] stores one attribute, the state (builder.py:465-477), so it is modelled
    by its state. *)
From Verif Require Import Base PyTree Tensor Num Utils States Controller.

(** The argument [batch_shape: Union[int, List[int]]] (builder.py:412). *)
Inductive batch_arg := BInt (z : Z) | BList (zs : list Z).
Definition batch_dims (b : batch_arg) : list Z := match b with BInt z => [z] | BList zs => zs end.
(** Shapes handed to [jnp.zeros] / [jnp.full]: a negative dimension is rejected by JAX. *)
Definition to_shape (zs : list Z) : res (list nat) :=
  mapM (fun z => if Z.leb 0 z then Ok (Z.to_nat z) else Err JaxError) zs.

(** Leaves of the [shapes] argument of [define_accumulator_by_shape]: ints or anything else. *)
Inductive sleaf := SInt (z : Z) | SOther.

Section Builder.
  Context {N : numsys}.
  Notation st := (state N).
  Notation tr := (tree (array N)).

  (** builder.py:410-457 [new_builder], with the [error_mode] argument of the constructor call
      (446-455) made explicit: [None] = not passed. [s >= 1.0] is [1.0 <= s]; both comparisons
      are false on NaN. A missing dtype is float32. *)
  Definition new_builder_with (em : option (option string)) (batch_shape : batch_arg)
    (core_dtype : option dtype) (eps dep : scl N) : res st :=
    _ <- guard (match core_dtype with None => true | Some d => is_floating d end) ValueError ;;
    _ <- guard (negb (s_leb N (s_one N) eps || s_leb N eps (s_zero N))) ValueError ;;
    sh <- to_shape (batch_dims batch_shape) ;;
    let d := default core_dtype DF32 in
    let zeros := a_full sh (v_zero N) d in
    act_states eps zeros zeros zeros [] [] [] dep em.
  (** The function as committed: lines 446-455 pass no [error_mode]. Also layers/core.py:36-58
      [AbstractControllerContract.new_builder], which forwards its arguments. *)
  Definition new_builder := new_builder_with None.

  (** builder.py:185-222: the checks on one leaf of a definition. *)
  Definition validate_leaf (batch_shape : list nat) (leaf : array N) : res unit :=
    _ <- guard (is_floating (a_dt leaf)) TypeError ;;
    _ <- guard (negb (Nat.ltb (length (a_shape leaf)) (length batch_shape))) ValueError ;;
    guard (shape_eqb (firstn (length batch_shape) (a_shape leaf)) batch_shape) ValueError.
  (** builder.py:167-222 [_validate_definition_pytree] *)
  Definition validate_definition (s : st) (t : tr) : res unit :=
    _ <- mapM (validate_leaf (a_shape (probabilities s))) (leaves t) ;; Ok tt.

  (** builder.py:224-253 [_define] *)
  Definition define (s : st) (name : string) (definition : tr) : res st :=
    _ <- validate_definition s definition ;;
    replace s (mkR None None None None
                   (Some (dset name definition (accumulators s)))
                   (Some (dset name definition (defaults s)))
                   (Some (dset name tnone (updates s)))
                   None None).
  (** builder.py:277-312 [define_accumulator_directly] *)
  Definition define_directly := define.

  (** builder.py:255-275 [_delete_definition] *)
  Definition delete_definition (s : st) (name : string) : res st :=
    dfs <- dpop name (defaults s) ;;
    accs <- dpop name (accumulators s) ;;
    upds <- dpop name (updates s) ;;
    replace s (mkR None None None None (Some accs) (Some dfs) (Some upds) None None).

  (** builder.py:372-381 [is_leaf]: a list filled with ints only. *)
  Fixpoint all_ints (cs : list (tree sleaf)) : option (list Z) :=
    match cs with
    | [] => Some []
    | Leaf (SInt z) :: cs' => match all_ints cs' with Some zs => Some (z :: zs) | None => None end
    | _ :: _ => None
    end.
  (** [tree_flatten_with_path(shapes, is_leaf)] (builder.py:385): lists of ints become leaves;
      any other leaf of the argument becomes a leaf that fails the test of line 391. *)
  Fixpoint collapse (t : tree sleaf) : tree (option (list Z)) :=
    match t with
    | Leaf _ => Leaf None
    | Node n cs =>
        match n, all_ints cs with
        | NList, Some zs => Leaf (Some zs)
        | _, _ => Node n (map collapse cs)
        end
    end.
  (** builder.py:391-404 *)
  Definition make_leaf (d : dtype) (fill : scl N) (leaf : option (list Z)) : res (array N) :=
    match leaf with
    | None => Err ValueError
    | Some zs => sh <- to_shape zs ;; Ok (a_full sh (v_of_scl N fill) d)
    end.
  (** builder.py:314-407 [define_accumulator_by_shape]; the warning (355-356) is added in Warnings.v. *)
  Definition define_by_shape (s : st) (name : string) (shapes : tree sleaf) (d : dtype) (fill : scl N)
    : res st :=
    let t := collapse shapes in
    new_leaves <- mapM (make_leaf d fill) (leaves t) ;;
    definition <- unflatten (structure t) new_leaves ;;
    define s name definition.

  (** builder.py:459-464 [build] *)
  Definition build (s : st) : st := s.

  (** builder.py:479-489 [flatten_builder], [unflatten_builder] *)
  Definition flatten_builder (s : st) := tree_flatten_state s.
  Definition unflatten_builder (aux : state_treedef) (flat : list (pyleaf N)) : res st :=
    tree_unflatten_state aux flat.
End Builder.
