(** * core/controller.py

    An [ACT_Controller] stores one attribute, the state (controller.py:441-444), so a controller
    is modelled by its state; [save] and [load] (433-437) and [make_viewer] (424-430) pass the
    state on unchanged. Object identity and aliasing are the subject of Heap.v. *)
From Verif Require Import Base PyTree Tensor Num Utils States.

Section Controller.
  Context {N : numsys}.
  Notation st := (state N).
  Notation tr := (tree (array N)).

  (** controller.py:115-117 [halt_threshold] *)
  Definition halt_threshold (s : st) : scl N := s_one_sub N (epsilon s).
  (** [tensor > python_float] *)
  Definition gt_scl (a : array N) (x : scl N) : tensor bool :=
    tensor_map (fun v => v_ltb N (v_of_scl N x) v) (a_ten a).
  (** controller.py:118-120 [halted_batches] *)
  Definition halted_batches (s : st) : tensor bool := gt_scl (probabilities s) (halt_threshold s).
  (** controller.py:122-128 *)
  Definition is_completely_halted (s : st) : bool := tall (halted_batches s).
  Definition is_any_halted (s : st) : bool := tany (halted_batches s).
  (** controller.py:130-135 *)
  Definition updates_ready_to_commit (s : st) : bool :=
    forallb (fun kv => negb (is_none (snd kv))) (updates s).
  Definition has_cached_updates (s : st) : bool :=
    existsb (fun kv => negb (is_none (snd kv))) (updates s).

  (** controller.py:138-185 [_process_probabilities]: returns the clamped halting
      probabilities, the residuals and the cumulative probabilities. *)
  Definition process_probabilities (s : st) (h : array N)
    : res (array N * array N * array N) :=
    let h1 := a_scale (depression_constant s) h in
    sum <- a_add h1 (probabilities s) ;;
    let will_be_halted := gt_scl sum (halt_threshold s) in
    newly_halting <- tbin andb will_be_halted (tnot (halted_batches s)) ;;
    let raw_residuals := a_one_minus (probabilities s) in
    residuals' <- a_select newly_halting raw_residuals (residuals s) ;;
    h2 <- a_select will_be_halted raw_residuals h1 ;;
    probabilities' <- a_add (probabilities s) h2 ;;
    Ok (h2, residuals', probabilities').

  (** controller.py:187-233 [_update_accumulator]. The test [update_value is None] (203) cannot
      fire: [tree_flatten] never yields [None] as a leaf. *)
  Definition update_accumulator (s : st) (h : array N) (acc upd : array N) : res (array N) :=
    _ <- guard (shape_eqb (a_shape acc) (a_shape upd)) RuntimeError ;;
    h' <- setup_left_broadcast (a_ten h) (a_shape acc) ;;
    halted <- setup_left_broadcast (halted_batches s) (a_shape acc) ;;
    halted' <- broadcast_to halted (a_shape acc) ;;
    weighted <- a_mul (mkA (a_dt h) h') upd ;;
    new_acc <- a_add acc weighted ;;
    a_select halted' acc new_acc.

  (** controller.py:237-259 [cache_update] *)
  Definition cache_update (s : st) (name : string) (item : tr) : res st :=
    match dget name (updates s) with
    | None => Err ValueError
    | Some pending =>
        if negb (is_none pending) then Err RuntimeError
        else
          let update := dset name item (updates s) in
          replace s (mkR None None None None None None (Some update) None None)
    end.

  (** controller.py:294-336: the loop of [iterate_act] over the accumulator names. *)
  Fixpoint iterate_loop (s : st) (h : array N) (names : list string) (accs upds : dict tr)
    : res (dict tr * dict tr) :=
    match names with
    | [] => Ok (accs, upds)
    | name :: names' =>
        '(accs', upds') <- rewrap RuntimeError (
           acc <- dlookup name accs ;;
           upd <- dlookup name upds ;;
           _ <- guard (negb (is_none upd)) RuntimeError ;;
           new_acc <- merge_pytrees (update_accumulator s h) acc upd ;;
           Ok (dset name new_acc accs, dset name tnone upds)) ;;
        iterate_loop s h names' accs' upds'
    end.

  (** controller.py:260-353 [iterate_act] *)
  Definition iterate_act (s : st) (halting_probabilities : array N) : res st :=
    _ <- guard (shape_eqb (a_shape halting_probabilities) (a_shape (probabilities s))) ValueError ;;
    let h0 := a_clip01 halting_probabilities in
    '(h, residuals', probabilities') <- process_probabilities s h0 ;;
    '(accs, upds) <- iterate_loop s h (dkeys (accumulators s)) (accumulators s) (updates s) ;;
    let new_iterations := a_plus_one (iterations s) in
    iterations' <- a_select (halted_batches s) (iterations s) new_iterations ;;
    replace s (mkR None (Some iterations') (Some residuals') (Some probabilities')
                   (Some accs) None (Some upds) None None).

  (** controller.py:386-403: the inner function of [reset_batches]. [whole] is the whole
      accumulator of that name: line 399 passes it instead of the leaf. *)
  Definition reset_leaf (unhalted : tensor bool) (whole : tr) (acc def : array N) : res (array N) :=
    sel <- setup_left_broadcast_obj unhalted whole ;;
    sel' <- broadcast_to sel (a_shape acc) ;;
    a_select sel' acc def.

  (** controller.py:378-408: the loop of [reset_batches]. *)
  Fixpoint reset_loop (s : st) (unhalted : tensor bool) (names : list string) (out : dict tr)
    : res (dict tr) :=
    match names with
    | [] => Ok out
    | name :: names' =>
        acc <- dlookup name (accumulators s) ;;
        def <- dlookup name (defaults s) ;;
        new_acc <- merge_pytrees (reset_leaf unhalted acc) acc def ;;
        reset_loop s unhalted names' (dset name new_acc out)
    end.

  (** controller.py:356-420 [reset_batches] *)
  Definition reset_batches (s : st) : res st :=
    _ <- guard (negb (has_cached_updates s)) RuntimeError ;;
    let unhalted := tnot (halted_batches s) in
    its <- a_mul_bool (iterations s) unhalted ;;
    probs <- a_mul_bool (probabilities s) unhalted ;;
    ress <- a_mul_bool (residuals s) unhalted ;;
    accs <- reset_loop s unhalted (dkeys (accumulators s)) [] ;;
    replace s (mkR None (Some its) (Some ress) (Some probs) (Some accs) None None None None).

  (** controller.py:439-440 [__getitem__] *)
  Definition getitem (s : st) (name : string) : res tr := dlookup name (accumulators s).

  (** controller.py:433-437 [save], [load]; 424-430 [make_viewer] *)
  Definition save (s : st) : st := s.
  Definition load (s : st) : st := s.
  Definition make_viewer (s : st) : st := s.

  (** controller.py:446-455 [flatten_controller], [unflatten_controller] *)
  Definition flatten_controller (s : st) := tree_flatten_state (save s).
  Definition unflatten_controller (aux : state_treedef) (flat : list (pyleaf N)) : res st :=
    c <- tree_unflatten_state aux flat ;; Ok (load c).
End Controller.
