(** * The texts of the error messages of layers/core.py, core/viewer.py, core/utils.py and the doors of core/tensoreditor.py

    Continues Messages.v, with the same simplifications. [str_class] is what Python prints for the class of an object that is neither
    a controller nor a tuple, [str_controller] for [ACT_Controller], [str_named] for a namedtuple class; [str_treedef] prints a treedef. *)
From Verif Require Import Base PyTree Tensor Num Utils States Controller Builder Viewer Editor Checkify Layers Text PyStr Messages.
Open Scope string_scope. Open Scope list_scope.

Section LayerMessages.
  Context {N : numsys} (str_controller : string) (str_class : tree (array N) -> string).
  Notation st := (state N).
  Notation tr := (tree (array N)).

  (** layers/core.py:168-176 [_validate_is_controller]: the complaint about an object that is none *)
  Definition m_not_controller (item : tr) (context : string) : outcome unit :=
    let msg := ("
            Expected to be given a result of type " ++ str_controller ++ ". 
            However, we instead got a result of type " ++ str_class item ++ "
            ")%string in
    Throws TypeError (Some (format_error_message msg context)).
  (** layers/core.py:178-197 [_validate_controller_not_empty] *)
  Definition m_not_empty (item : st) (context : string) : outcome unit :=
    complain (negb (Nat.eqb (length (accumulators item)) 0)) RuntimeError (format_error_message "
            An empty controller was defined. This cannot hold anything, and so is
            not allowed.

            It is possible you did not remember that the builder is not mutable. Did you use the 
            proper syntax of:

            builder = builder.define_...your definition

            Rather than:

            builder.define_...your definition

            when defining your accumulators using the builder?
            " context).
  (** layers/core.py:199-206 [_validate_is_tuple]: the complaint about an object that is none *)
  Definition m_not_tuple (item : tr) (context : string) : outcome unit :=
    let msg := ("
            Expected to see tuple, but instead got type " ++ str_class item ++ "
            ")%string in
    Throws TypeError (Some (format_error_message msg context)).
  (** layers/core.py:208-216 [_validate_length_two] *)
  Definition m_length_two (item : list (Layers.item N)) (context : string) : outcome unit :=
    let msg := ("
            Expected tuple collection to have length of two. Instead,
            it had length of " ++ str_int (length item) ++ "
            ")%string in
    complain (Nat.eqb (length item) 2) RuntimeError (format_error_message msg context).
  (** layers/core.py:218-242 [_validate_is_novel_controller]: the complaint about the controller that was passed in *)
  Definition m_not_novel (context : string) : outcome unit :=
    Throws RuntimeError (Some (format_error_message "
            Original and new controller were the same. This
            is not allowed.

            This is likely to occur if you did not properly account
            for the immutable nature of the controller when programming
            your layer. Did you use code that explictly reassigns variables
            like this?

            controller = controller.cache_state(...your update)
            controller = controller.iterate_act(...your halting probabilities)

            Rather than:

            controller.cache_state(...your update)
            controller.iterate_act(...your halting probabilities)

            " context)).
  (** layers/core.py:244-275 [_validate_all_act_updates_committed] *)
  Definition m_all_committed (controller : st) (context : string) : outcome unit :=
    obind (complain (negb (updates_ready_to_commit controller)) RuntimeError (format_error_message "
            All accumulators were filled, but you never committed the 
            updates. You must commit your updates using iterate_act. Also
            make sure you are explicitly reassigning your variables, like follows:

            controller = controller.iterate_act(halting_probabilities) 

            rather than:

            controller.iterate_act(halting_probabilities)
            " context)) (fun _ =>
    complain (negb (has_cached_updates controller)) RuntimeError (format_error_message "
            Controller had uncommitted updates and is not ready to commit. Make sure
            you use controller.cache_update to cache an update for every accumulator you defined.
            Also, make sure you use the immutable syntax where you explictly reassign variables:

            controller = controller.cache_update(...your update)

            Rather than:

            controller.cache_update(...your_update)
            " context)).
  (** layers/core.py:277-286 [make_controller]; what the user's code raises is passed on without its text *)
  Definition m_make_controller (check_errors : bool) (l : layer N) (init : tr) (dep : scl N) : outcome (made N) :=
    obind (silent (l_make_controller l init dep)) (fun controller =>
    let context := "An issue occurred while trying to make an act controller using the user layer" in
    obind (if check_errors
           then match controller with MOther t => m_not_controller t context | MCtrl c => m_not_empty c context end
           else Gives tt) (fun _ =>
    Gives controller)).
  (** layers/core.py:288-308 [run_iteration]: the last check is applied to [controller], the argument *)
  Definition m_validate_update (controller : st) (update : ret N) : outcome unit :=
    let context := "An issue occurred while validating the execution of run_iteration" in
    match update with
    | ROther t => m_not_tuple t context
    | RTuple l =>
        obind (m_length_two l context) (fun _ =>
        match l with
        | IObj t :: _ => m_not_controller t context
        | ISame :: _ => m_not_novel context
        | ICtrl _ :: _ => m_all_committed controller context
        | [] => Throws RuntimeError None (* not reached: two components *)
        end)
    end.
  Definition m_run_iteration (check_errors : bool) (l : layer N) (controller : st) (u : tr) : outcome (ret N) :=
    obind (silent (l_run_iteration l controller u)) (fun update =>
    obind (if check_errors then m_validate_update controller update else Gives tt) (fun _ =>
    Gives update)).
End LayerMessages.

Section ViewerMessages.
  Context {N : numsys}.
  Notation st := (state N).
  Notation tr := (tree (array N)).
  (** viewer.py:84-132 [transform]: whatever the function raises is turned into one text *)
  Definition m_transform (s : st) (f : array N -> res (array N)) : outcome st :=
    match (its <- f (iterations s) ;;
           ress <- f (residuals s) ;;
           probs <- f (probabilities s) ;;
           accs <- dmapM (tree_mapM f) (accumulators s) ;;
           dfs <- dmapM (tree_mapM f) (defaults s) ;;
           upds <- dmapM (tree_mapM f) (defaults s) ;;
           Ok (its, ress, probs, accs, dfs, upds)) with
    | Err _ => Throws RuntimeError (Some "An issue occurred in using the provided function")
    | Ok (its, ress, probs, accs, dfs, upds) =>
        silent (replace s (mkR None (Some its) (Some ress) (Some probs) (Some accs) (Some dfs) (Some upds) None None))
    end.
  (** viewer.py:134-160 [mask_data] *)
  Definition m_mask_data (s : st) (mask_dtype : dtype) (mask : tensor bool) : outcome st :=
    obind (complain (dtype_eqb mask_dtype DBool) ValueError "Mask was not made up of bool dtypes.") (fun _ =>
    obind (complain (shape_eqb (shape mask) (a_shape (probabilities s))) ValueError
             ("Mask of shape " ++ str_shape (shape mask) ++ " does not match batch shape of " ++ str_shape (a_shape (probabilities s)))%string) (fun _ =>
    m_transform s (mask_leaf mask))).
  (** tensoreditor.py:464-496 [edit_controller], [edit_save]: [modes] is printed as a list of strings *)
  Definition m_edit (s : st) (mode : string) : outcome (editor N) :=
    obind (complain (existsb (String.eqb mode) error_modes) ValueError
             ("Error mode must have been within ['" ++ m_standard ++ "', '" ++ m_silence ++ "']")%string) (fun _ => Gives (mkEd s mode)).
End ViewerMessages.

Section TreeMessages.
  Context (str_named : string -> string) (str_treedef : treedef -> string).
  (** What Python prints for the class of a node. *)
  Definition str_node (n : node) : string :=
    match n with
    | NNone => "<class 'NoneType'>" | NTuple => "<class 'tuple'>" | NList => "<class 'list'>" | NDict _ => "<class 'dict'>"
    | NNamed c => str_named c
    end.
  (** utils.py:418-430: the loop over the keys *)
  Fixpoint m_keys (ks1 ks2 : list string) (context : string) : outcome unit :=
    match ks1, ks2 with
    | k1 :: ks1', k2 :: ks2' =>
        let msg := ("
                Two trees could not be broadcast together due to mismatched 
                tree shape. 
                
                A key holding a child on the source node, named '" ++ k1 ++ "',
                was not also found in the same position on target node, instead found
                '" ++ k2 ++ "'
                
                Dictionaries and other ordered objects must be in the same order for both
                trees. Did you define two dictionaries with the keys in differing orders?
                ")%string in
        obind (complain (String.eqb k1 k2) RuntimeError (format_error_message msg context)) (fun _ => m_keys ks1' ks2' context)
    | _, _ => Gives tt
    end.
  (** utils.py:360-430 [_validate_children_descent] *)
  Definition m_descent (n : node) (n_children : nat) (m : node) (m_children : nat) (context : string) : outcome unit :=
    let msg1 := ("
        Two trees could not be broadcast together due to mismatched 
        tree shape. 
        
        The source tree had a node of type " ++ str_node n ++ ".
        However, the target tree had a node of type " ++ str_node m ++ " in the 
        same place.
        
        This is not allowed. Make sure nodes either are the same class,
        or one is a tensor and the other a pytree.
        ")%string in
    let msg2 := ("
        Two trees could not be broadcast together due to mismatched 
        tree shape. 
        
        The source tree had " ++ str_int n_children ++ " children attached to the 
        current node. However, at the same place at the target
        tree, there were " ++ str_int m_children ++ " children.
        
        This mismatch is not allowed. Make sure nodes either have
        the same number of children, or one is a tensor and the other
        a pytree.
        ")%string in
    obind (complain (node_class_eqb n m) RuntimeError (format_error_message msg1 context)) (fun _ =>
    obind (complain (Nat.eqb n_children m_children) RuntimeError (format_error_message msg2 context)) (fun _ =>
    m_keys (node_keys n) (node_keys m) context)).
  (** utils.py:525-543: the loop over the children of two nodes, from number [i] on. The error of a child is the cause of the one given here. *)
  Fixpoint m_children {L} (src tgt : treedef) (i : nat) (cs ds : list treedef) (q : list L) (context : string) : outcome (list L * list L) :=
    match cs, ds with
    | c :: cs', d :: ds' =>
        match replicate_leaves c d q with
        | Err _ =>
            let msg := (dedent ("
            Issue occurred between trees on child " ++ str_int i ++ " of the following
            pytrees.
            ") ++ "
On source pytree: 
{" ++ str_treedef src ++ "} 
" ++ "
On target pytree: 
{" ++ str_treedef tgt ++ "}")%string in
            Throws RuntimeError (Some (format_error_message msg context))
        | Ok (update, q1) => obind (m_children src tgt (S i) cs' ds' q1 context) (fun '(rest, q2) => Gives (update ++ rest, q2))
        end
    | _, _ => Gives ([], q)
    end.
  (** utils.py:435-543 [_replicate_leaves] *)
  Definition m_replicate {L} (src tgt : treedef) (q : list L) (context : string) : outcome (list L * list L) :=
    if treedef_is_leaf src then silent (replicate_leaves src tgt q)
    else if treedef_is_leaf tgt then Throws RuntimeError (Some (format_error_message "
        Source tree was not broadcastable.
         
        Source tree had pytree branch node, at position target
        tree had tensor node. This is not allowed.
        
        Did you swap the order you gave your parameters?
        " context))
    else
      match src, tgt with
      | Node n cs, Node m ds =>
          obind (m_descent n (length cs) m (length ds) context) (fun _ => m_children src tgt 0 cs ds q context)
      | _, _ => Throws RuntimeError None (* not reached: both have children *)
      end.
  (** utils.py:79-135 [broadcast_pytree_shape] *)
  Definition m_broadcast {L M} (source : tree L) (target : tree M) : outcome (tree L) :=
    obind (m_replicate (structure source) (structure target) (leaves source) "An issue occurred while trying to broadcast two pytrees together: ") (fun '(final, remainder) =>
    obind (complain (Nat.eqb (length final) (length (leaves target))) AssertionError "error 1: This should never happen. Yell at maintainer") (fun _ =>
    obind (complain (Nat.eqb (length remainder) 0) AssertionError "error 2: This should never happen. Yell at maintainer") (fun _ =>
    silent (unflatten (structure target) final)))).
End TreeMessages.

Section OperatorMessages.
  Context {N : numsys}.
  Notation tr := (tree (array N)).
  (** utils.py:175-200: the loop over the leaves, from number [i] on *)
  Fixpoint m_operate (operator : array N -> array N -> res (array N)) (i : nat) (la lb : list (array N)) (context : string) : outcome (list (array N)) :=
    match la, lb with
    | a :: la', b :: lb' =>
        let msg := ("
                An issue occurred while trying to execute the operator. It failed
                while attempting to execute the operators on leafs '" ++ str_int i ++ "'
                ")%string in
        match apply_left_broadcast operator a b with
        | Err _ => Throws RuntimeError (Some (format_error_message msg context))
        | Ok c => obind (m_operate operator (S i) la' lb' context) (fun cs => Gives (c :: cs))
        end
    | _, _ => Gives []
    end.
  (** utils.py:138-202 [execute_binary_operator] *)
  Definition m_execute_binary (operator : array N -> array N -> res (array N)) (a b : tr) (context : string) : outcome tr :=
    match (match broadcast_pytree_shape a b with
           | Ok a' => Ok (a', b)
           | Err RuntimeError => b' <- broadcast_pytree_shape b a ;; Ok (a, b')
           | Err e => Err e
           end) with
    | Err _ => Throws RuntimeError (Some (format_error_message "
        An issue occurred while setting up the pytrees composing
        the two operands to be compatible.
        " context))
    | Ok (a', b') =>
        obind (m_operate operator 0 (leaves a') (leaves b') context) (fun output =>
        silent (unflatten (structure a') output))
    end.
End OperatorMessages.
