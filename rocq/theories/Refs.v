(** * Pytrees as Python objects: which containers are shared

    In the other model files a pytree is a value. In Python its dictionaries and lists are mutable
    objects, and the repository stores the very objects it is given. Here the methods that receive,
    hold or make pytrees are written again over a heap of containers. (The objects around the
    pytrees - the three tables, the state, the controller - are the subject of Heap.v and are
    values here.)

    Simplifications. As in PyTree.v a dictionary lists its values by increasing key. [limit] is the
    interpreter's recursion limit: reading a deeper tree, or one that contains itself, raises
    RecursionError, which is a RuntimeError. A reference to nothing does not occur in Python; reading
    one is a TypeError here. [None] is not a container but a value of its own. *)
From Verif Require Import Base PyTree Tensor Num Utils States Controller Builder Viewer Editor.

Section Refs.
  Context {N : numsys} (limit : nat).
  Notation st := (state N).
  Notation tr := (tree (array N)).

  (** A Python value inside a pytree: an array, [None], or a reference to a container. *)
  Inductive pyval := PLeaf (a : array N) | PNone | PRef (l : nat).
  Definition container := (node * list pyval)%type.
  Definition containers := list container.
  Definition is_pnone (v : pyval) : bool := match v with PNone => true | _ => false end.

  (** What [tree_flatten] sees when it walks down from [v]. *)
  Fixpoint fetch (fuel : nat) (h : containers) (v : pyval) : res tr :=
    match v with
    | PLeaf a => Ok (Leaf a)
    | PNone => Ok tnone
    | PRef l =>
        match fuel with
        | 0 => Err RuntimeError
        | S fuel' =>
            match nth_error h l with
            | None | Some (NNone, _) => Err TypeError
            | Some (n, vs) => ts <- mapM (fetch fuel' h) vs ;; Ok (Node n ts)
            end
        end
    end.
  (** [tree_unflatten] and [tree_map] make a new container for every node, children first. *)
  Fixpoint store (t : tr) (h : containers) : pyval * containers :=
    match t with
    | Leaf a => (PLeaf a, h)
    | Node NNone _ => (PNone, h)
    | Node n cs =>
        let '(vs, h1) :=
          (fix go (cs : list tr) (h : containers) : list pyval * containers :=
             match cs with
             | [] => ([], h)
             | c :: cs' => let '(v, h1) := store c h in let '(vs, h2) := go cs' h1 in (v :: vs, h2)
             end) cs h in
        (PRef (length h1), h1 ++ [(n, vs)])
    end.

  (** The state (states.py:31-32,166-174), the three tables holding Python values. *)
  Record ostate := mkO {
    o_epsilon : scl N;
    o_iterations : array N;
    o_residuals : array N;
    o_probabilities : array N;
    o_defaults : dict pyval;
    o_accumulators : dict pyval;
    o_updates : dict pyval;
    o_depression_constant : scl N;
    o_error_mode : option string
  }.
  (** The fields of the state that are not tables. *)
  Definition core (o : ostate) : st :=
    mkState (o_epsilon o) (o_iterations o) (o_residuals o) (o_probabilities o) [] [] []
      (o_depression_constant o) (o_error_mode o).
  Definition with_tables (o : ostate) (dfs accs upds : dict pyval) : ostate :=
    mkO (o_epsilon o) (o_iterations o) (o_residuals o) (o_probabilities o) dfs accs upds
      (o_depression_constant o) (o_error_mode o).

  (** Statements: a value or an exception, and the containers left behind in either case. *)
  Definition R (A : Type) := containers -> res A * containers.
  Definition rret {A} (a : A) : R A := fun h => (Ok a, h).
  Definition rlift {A} (r : res A) : R A := fun h => (r, h).
  Definition rbind {A B} (m : R A) (f : A -> R B) : R B :=
    fun h => match m h with (Ok a, h') => f a h' | (Err e, h') => (Err e, h') end.
  Definition rrewrap {A} (e : exn) (m : R A) : R A :=
    fun h => match m h with (Ok a, h') => (Ok a, h') | (Err _, h') => (Err e, h') end.
  Definition rfetch (v : pyval) : R tr := fun h => (fetch limit h v, h).
  Definition rstore (t : tr) : R pyval := fun h => let '(v, h') := store t h in (Ok v, h').
  Notation "x <~ e ;; k" := (rbind e (fun x => k)) (at level 61, e at next level, right associativity).
  Notation "' p <~ e ;; k" := (rbind e (fun p => k)) (at level 61, p pattern, e at next level, right associativity).

  (** builder.py:224-253 [_define]: the definition is checked and the object itself stored twice. *)
  Definition o_define (o : ostate) (name : string) (definition : pyval) : R ostate :=
    t <~ rfetch definition ;;
    _ <~ rlift (validate_definition (core o) t) ;;
    rret (with_tables o (dset name definition (o_defaults o)) (dset name definition (o_accumulators o))
            (dset name PNone (o_updates o))).
  (** builder.py:255-275 [_delete_definition] *)
  Definition o_delete (o : ostate) (name : string) : R ostate :=
    dfs <~ rlift (dpop name (o_defaults o)) ;;
    accs <~ rlift (dpop name (o_accumulators o)) ;;
    upds <~ rlift (dpop name (o_updates o)) ;;
    rret (with_tables o dfs accs upds).

  (** controller.py:237-259 [cache_update]: the object itself is stored, without a look at it. *)
  Definition o_cache (o : ostate) (name : string) (item : pyval) : R ostate :=
    match dget name (o_updates o) with
    | None => rlift (Err ValueError)
    | Some pending =>
        if negb (is_pnone pending) then rlift (Err RuntimeError)
        else rret (with_tables o (o_defaults o) (o_accumulators o) (dset name item (o_updates o)))
    end.

  (** utils.py:228-266 [merge_pytrees]: both trees are flattened, the result is unflattened. *)
  Definition o_merge (f : array N -> array N -> res (array N)) (primary aux : pyval) : R pyval :=
    tp <~ rfetch primary ;; ta <~ rfetch aux ;; t <~ rlift (merge_pytrees f tp ta) ;; rstore t.
  (** controller.py:294-336 *)
  Fixpoint o_iterate_loop (s : st) (h : array N) (names : list string) (accs upds : dict pyval)
    : R (dict pyval * dict pyval) :=
    match names with
    | [] => rret (accs, upds)
    | name :: names' =>
        '(accs', upds') <~ rrewrap RuntimeError (
           acc <~ rlift (dlookup name accs) ;;
           upd <~ rlift (dlookup name upds) ;;
           _ <~ rlift (guard (negb (is_pnone upd)) RuntimeError) ;;
           new_acc <~ o_merge (update_accumulator s h) acc upd ;;
           rret (dset name new_acc accs, dset name PNone upds)) ;;
        o_iterate_loop s h names' accs' upds'
    end.
  (** controller.py:260-353 [iterate_act] *)
  Definition o_iterate (o : ostate) (halting_probabilities : array N) : R ostate :=
    _ <~ rlift (guard (shape_eqb (a_shape halting_probabilities) (a_shape (o_probabilities o))) ValueError) ;;
    '(h, residuals', probabilities') <~ rlift (process_probabilities (core o) (a_clip01 halting_probabilities)) ;;
    '(accs, upds) <~ o_iterate_loop (core o) h (dkeys (o_accumulators o)) (o_accumulators o) (o_updates o) ;;
    iterations' <~ rlift (a_select (halted_batches (core o)) (o_iterations o) (a_plus_one (o_iterations o))) ;;
    rret (mkO (o_epsilon o) iterations' residuals' probabilities' (o_defaults o) accs upds
            (o_depression_constant o) (o_error_mode o)).

  (** controller.py:386-403: line 399 hands the whole accumulator to [setup_left_broadcast]. *)
  Definition o_reset_merge (unhalted : tensor bool) (acc def : pyval) : R pyval :=
    ta <~ rfetch acc ;; td <~ rfetch def ;;
    t <~ rlift (merge_pytrees (reset_leaf unhalted ta) ta td) ;; rstore t.
  (** controller.py:378-408 *)
  Fixpoint o_reset_loop (o : ostate) (unhalted : tensor bool) (names : list string) (out : dict pyval)
    : R (dict pyval) :=
    match names with
    | [] => rret out
    | name :: names' =>
        acc <~ rlift (dlookup name (o_accumulators o)) ;;
        def <~ rlift (dlookup name (o_defaults o)) ;;
        new_acc <~ o_reset_merge unhalted acc def ;;
        o_reset_loop o unhalted names' (dset name new_acc out)
    end.
  (** controller.py:356-420 [reset_batches] *)
  Definition o_reset (o : ostate) : R ostate :=
    _ <~ rlift (guard (negb (existsb (fun kv => negb (is_pnone (snd kv))) (o_updates o))) RuntimeError) ;;
    let unhalted := tnot (halted_batches (core o)) in
    its <~ rlift (a_mul_bool (o_iterations o) unhalted) ;;
    probs <~ rlift (a_mul_bool (o_probabilities o) unhalted) ;;
    ress <~ rlift (a_mul_bool (o_residuals o) unhalted) ;;
    accs <~ o_reset_loop o unhalted (dkeys (o_accumulators o)) [] ;;
    rret (mkO (o_epsilon o) its ress probs (o_defaults o) accs (o_updates o)
            (o_depression_constant o) (o_error_mode o)).

  (** [jax.tree_util.tree_map(f, table)]: all the leaves, then new containers. *)
  Fixpoint o_map (f : array N -> res (array N)) (d : dict pyval) : R (dict pyval) :=
    match d with
    | [] => rret []
    | (k, v) :: d' =>
        t <~ rfetch v ;; t' <~ rlift (tree_mapM f t) ;; v' <~ rstore t' ;;
        d'' <~ o_map f d' ;; rret ((k, v') :: d'')
    end.
  (** viewer.py:84-132 [transform]; the updates are made from the defaults (117-119) *)
  Definition o_transform (o : ostate) (f : array N -> res (array N)) : R ostate :=
    rrewrap RuntimeError (
      its <~ rlift (f (o_iterations o)) ;;
      ress <~ rlift (f (o_residuals o)) ;;
      probs <~ rlift (f (o_probabilities o)) ;;
      accs <~ o_map f (o_accumulators o) ;;
      dfs <~ o_map f (o_defaults o) ;;
      upds <~ o_map f (o_defaults o) ;;
      rret (mkO (o_epsilon o) its ress probs dfs accs upds (o_depression_constant o) (o_error_mode o))).

  (** Reading all three tables. *)
  Definition resolve (o : ostate) (h : containers) : res st :=
    dfs <- dmapM (fetch limit h) (o_defaults o) ;;
    accs <- dmapM (fetch limit h) (o_accumulators o) ;;
    upds <- dmapM (fetch limit h) (o_updates o) ;;
    Ok (mkState (o_epsilon o) (o_iterations o) (o_residuals o) (o_probabilities o) dfs accs upds
          (o_depression_constant o) (o_error_mode o)).
  (** tensoreditor.py:383-462: [set_accumulator], [set_defaults] and [set_updates] on a controller
      opened in mode [mode] (464-479), followed by [build] (503-505): the value is checked and the
      object itself stored. Simplification: all tables are read, where Python reads the one entry. *)
  Inductive slot := SAccumulator | SDefaults | SUpdates.
  Definition set_slot {M : numsys} (w : slot) (s : state M) (mode name : string) (t : tree (array M)) : res (state M) :=
    e <- edit_controller s mode ;;
    e' <- match w with
          | SAccumulator => set_accumulator e name t
          | SDefaults => set_defaults e name t
          | SUpdates => set_updates e name t
          end ;;
    Ok (editor_build e').
  Definition o_set (w : slot) (o : ostate) (mode name : string) (v : pyval) : R ostate :=
    s <~ (fun h => (resolve o h, h)) ;;
    t <~ rfetch v ;;
    _ <~ rlift (set_slot w s mode name t) ;;
    rret (match w with
          | SAccumulator => with_tables o (o_defaults o) (dset name v (o_accumulators o)) (o_updates o)
          | SDefaults => with_tables o (dset name v (o_defaults o)) (o_accumulators o) (o_updates o)
          | SUpdates => with_tables o (o_defaults o) (o_accumulators o) (dset name v (o_updates o))
          end).

  (** controller.py:439-440 [__getitem__]: hands out the object itself. *)
  Definition o_getitem (o : ostate) (name : string) : res pyval := dlookup name (o_accumulators o).
End Refs.
Arguments pyval N : clear implicits.
Arguments container N : clear implicits.
Arguments containers N : clear implicits.
Arguments ostate N : clear implicits.
Arguments R N A : clear implicits.

(** ** All these calls, with pytrees given as objects ([T := pyval N]) or as values ([T := tree (array N)]) *)
Inductive ocall (N : numsys) (T : Type) :=
| ODefine (name : string) (definition : T)
| ODelete (name : string)
| OCache (name : string) (item : T)
| OIter (h : array N)
| OReset
| OTransform (f : array N -> res (array N))
| OSet (w : slot) (mode name : string) (value : T).
Arguments ODefine {N T}. Arguments ODelete {N T}. Arguments OCache {N T}. Arguments OIter {N T}.
Arguments OReset {N T}. Arguments OTransform {N T}. Arguments OSet {N T}.

Definition object_call {N} (limit : nat) (o : ostate N) (c : ocall N (pyval N)) : R N (ostate N) :=
  match c with
  | ODefine name v => o_define limit o name v
  | ODelete name => o_delete o name
  | OCache name v => o_cache o name v
  | OIter h => o_iterate limit o h
  | OReset => o_reset limit o
  | OTransform f => o_transform limit o f
  | OSet w mode name v => o_set limit w o mode name v
  end.
Definition value_call {N} (s : state N) (c : ocall N (tree (array N))) : res (state N) :=
  match c with
  | ODefine name t => define_directly s name t
  | ODelete name => delete_definition s name
  | OCache name t => cache_update s name t
  | OIter h => iterate_act s h
  | OReset => reset_batches s
  | OTransform f => transform s f
  | OSet w mode name t => set_slot w s mode name t
  end.
