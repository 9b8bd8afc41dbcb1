(** * core/states.py: the record of all tensors of an ACT process. *)
From Verif Require Import Base PyTree Tensor Num.

(** src/jax_act/core/states.py:31-32,166-174 (fields). [updates] holds Python's [None] as the
    tree [tnone]; [error_mode] holds [None] or a string. *)
Record state (N : numsys) := mkState {
  epsilon : scl N;
  iterations : array N;
  residuals : array N;
  probabilities : array N;
  defaults : dict (tree (array N));
  accumulators : dict (tree (array N));
  updates : dict (tree (array N));
  depression_constant : scl N;
  error_mode : option string
}.
Arguments mkState {N}.
Arguments epsilon {N} s.
Arguments iterations {N} s.
Arguments residuals {N} s.
Arguments probabilities {N} s.
Arguments defaults {N} s.
Arguments accumulators {N} s.
Arguments updates {N} s.
Arguments depression_constant {N} s.
Arguments error_mode {N} s.

Section States.
  Context {N : numsys}.
  Notation st := (state N).
  Notation tr := (tree (array N)).

  (** The dataclass constructor (states.py:31,166-174): no field has a default, so a missing
      keyword argument is a TypeError. Only [error_mode] is ever omitted (builder.py:446-455);
      [None] here is "argument not passed", [Some None] is [error_mode=None]. *)
  Definition act_states (eps : scl N) (its ress probs : array N) (dfs accs upds : dict tr)
    (dep : scl N) (em : option (option string)) : res st :=
    match em with
    | None => Err TypeError
    | Some m => Ok (mkState eps its ress probs dfs accs upds dep m)
    end.

  (** The keyword arguments of [replace] (states.py:126-136); [None] = argument is [None]. *)
  Record replace_args := mkR {
    r_epsilon : option (scl N);
    r_iterations : option (array N);
    r_residuals : option (array N);
    r_probabilities : option (array N);
    r_accumulators : option (dict tr);
    r_defaults : option (dict tr);
    r_updates : option (dict tr);
    r_depression_constant : option (scl N);
    r_error_mode : option string
  }.
  Definition no_args : replace_args := mkR None None None None None None None None None.
  Definition default {A} (o : option A) (x : A) : A := match o with Some y => y | None => x end.

  (** states.py:126-165 [replace]. [validate_depression_constant] (149) and
      [validate_error_mode] (153) are not defined by the class: AttributeError. *)
  Definition replace (s : st) (r : replace_args) : res st :=
    dep <- match r_depression_constant r with
           | None => Ok (depression_constant s)
           | Some _ => Err AttributeError
           end ;;
    em <- match r_error_mode r with
          | None => Ok (error_mode s)
          | Some _ => Err AttributeError
          end ;;
    Ok (mkState (default (r_epsilon r) (epsilon s))
                (default (r_iterations r) (iterations s))
                (default (r_residuals r) (residuals s))
                (default (r_probabilities r) (probabilities s))
                (default (r_defaults r) (defaults s))
                (default (r_accumulators r) (accumulators s))
                (default (r_updates r) (updates s))
                dep em).

  (** states.py:52-75 [execute_validation]: the name [ErrorModes] (66) is bound nowhere in the
      module, so the first comparison raises NameError whatever the predicates say. *)
  Definition execute_validation {A} (s : st) (operand : A) (predicates : list (A -> bool)) : res A :=
    Err NameError.
  (** states.py:76-86 [validate_epsilon] *)
  Definition validate_epsilon (s : st) (eps : scl N) : res (scl N) :=
    execute_validation s eps [fun e => s_leb N (s_zero N) e; fun e => s_leb N e (s_one N)].
  (** states.py:88-109 [validate_iterations] *)
  Definition validate_iterations (s : st) (its : array N) : res (array N) :=
    execute_validation s its
      [fun i => is_floating (a_dt i); fun i => forallb (v_leb N (v_zero N)) (a_data i)].
  (** states.py:111-125 [validate_residuals]: builds the predicate list, returns [None]. *)
  Definition validate_residuals (s : st) (r : array N) : res (option (array N)) := Ok None.

  (** ** The state as a pytree. *)

  (** Leaves of a flattened state: arrays, Python floats, strings. *)
  Inductive pyleaf := LArr (a : array N) | LScl (x : scl N) | LStr (s : string).

  (** [tree_flatten] of a dict sorts its items by key. *)
  Fixpoint insert_item {V} (kv : string * V) (d : dict V) : dict V :=
    match d with
    | [] => [kv]
    | kv' :: d' => if String.ltb (fst kv) (fst kv') then kv :: d else kv' :: insert_item kv d'
    end.
  Definition sort_items {V} (d : dict V) : dict V := fold_right insert_item [] d.

  Definition dict_tree (d : dict tr) : tree pyleaf :=
    let d' := sort_items d in
    Node (NDict (dkeys d')) (map (tmap LArr) (dvals d')).

  (** The values of [asdict(state)] in field order (states.py:183,187). *)
  Definition field_trees (s : st) : list (tree pyleaf) :=
    [ Leaf (LScl (epsilon s));
      Leaf (LArr (iterations s));
      Leaf (LArr (residuals s));
      Leaf (LArr (probabilities s));
      dict_tree (defaults s);
      dict_tree (accumulators s);
      dict_tree (updates s);
      Leaf (LScl (depression_constant s));
      match error_mode s with Some m => Leaf (LStr m) | None => tnone end ].

  (** states.py:182-192 [state_flatten]: per field the list of leaves, and the treedefs. *)
  Definition state_flatten (s : st) : list (list pyleaf) * list treedef :=
    (map leaves (field_trees s), map structure (field_trees s)).

  (** Reading the nine unflattened values back as fields. In Python the constructor takes any
      value (states.py:200); a value that is not of the field's type is [None] here, which
      cannot happen for a flattened state (see the round trip theorem). *)
  Definition as_scl (t : tree pyleaf) : option (scl N) :=
    match t with Leaf (LScl x) => Some x | _ => None end.
  Definition as_arr (t : tree pyleaf) : option (array N) :=
    match t with Leaf (LArr x) => Some x | _ => None end.
  Definition as_mode (t : tree pyleaf) : option (option string) :=
    match t with Leaf (LStr m) => Some (Some m) | Node NNone [] => Some None | _ => None end.
  Fixpoint as_tree (t : tree pyleaf) : option tr :=
    match t with
    | Leaf (LArr a) => Some (Leaf a)
    | Leaf _ => None
    | Node n cs =>
        match (fix go (cs : list (tree pyleaf)) : option (list tr) :=
                 match cs with
                 | [] => Some []
                 | c :: cs' => match as_tree c, go cs' with
                               | Some x, Some xs => Some (x :: xs)
                               | _, _ => None
                               end
                 end) cs with
        | Some xs => Some (Node n xs)
        | None => None
        end
    end.
  Fixpoint as_items (ks : list string) (cs : list (tree pyleaf)) : option (dict tr) :=
    match ks, cs with
    | [], [] => Some []
    | k :: ks', c :: cs' =>
        match as_tree c, as_items ks' cs' with
        | Some x, Some xs => Some ((k, x) :: xs)
        | _, _ => None
        end
    | _, _ => None
    end.
  Definition as_dict (t : tree pyleaf) : option (dict tr) :=
    match t with Node (NDict ks) cs => as_items ks cs | _ => None end.

  Definition state_of_trees (vs : list (tree pyleaf)) : res st :=
    match vs with
    | [e; i; r; p; d; a; u; c; m] =>
        match as_scl e, as_arr i, as_arr r, as_arr p, as_dict d, as_dict a, as_dict u,
              as_scl c, as_mode m with
        | Some e, Some i, Some r, Some p, Some d, Some a, Some u, Some c, Some m =>
            Ok (mkState e i r p d a u c m)
        | _, _, _, _, _, _, _, _, _ => Err TypeError
        end
    | _ => Err TypeError
    end.

  (** states.py:194-200 [state_unflatten] *)
  Definition state_unflatten (aux : list treedef) (flat : list (list pyleaf)) : res st :=
    vs <- mapM2 (fun value td => unflatten td value) flat aux ;; state_of_trees vs.

  (** [jax.tree_util.tree_flatten(state)] (states.py:202 registers the class): all leaves, and a
      treedef made of the auxiliary data and the lengths of the nine child lists. *)
  Definition state_treedef := (list treedef * list nat)%type.
  Definition tree_flatten_state (s : st) : list pyleaf * state_treedef :=
    let '(values, aux) := state_flatten s in
    (concat values, (aux, map (@length _) values)).
  Fixpoint split_by (ns : list nat) (q : list pyleaf) : res (list (list pyleaf)) :=
    match ns with
    | [] => match q with [] => Ok [] | _ => Err ValueError end
    | n :: ns' =>
        if Nat.leb n (length q) then
          rest <- split_by ns' (skipn n q) ;; Ok (firstn n q :: rest)
        else Err ValueError
    end.
  Definition tree_unflatten_state (td : state_treedef) (q : list pyleaf) : res st :=
    values <- split_by (snd td) q ;; state_unflatten (fst td) values.
End States.
Arguments pyleaf N : clear implicits.
Arguments replace_args N : clear implicits.
