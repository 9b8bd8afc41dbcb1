(** * The texts of the error messages of core/tensoreditor.py, core/builder.py and core/controller.py

    Editor.v, Builder.v and Controller.v say which exception is raised; here the same methods are given with the
    texts the exceptions carry. Simplifications: the text of an exception that JAX or Python raises by itself is not
    given ([None]); of chained exceptions ([raise .. from ..]) only the outermost is; what [checkify] adds to
    the text of a failed check (that a check failed, and where) is left out. [str_scl] is Python's [str] on floats. *)
From Verif Require Import Base PyTree Tensor Num Utils States Controller Builder Editor Checkify Text PyStr.
Open Scope string_scope. Open Scope list_scope.

(** What the caller of a method sees: a result, or an exception with its text. *)
Inductive outcome (A : Type) := Gives (a : A) | Throws (e : exn) (text : option string).
Arguments Gives {A} a.
Arguments Throws {A} e text.
Definition obind {A B} (o : outcome A) (f : A -> outcome B) : outcome B :=
  match o with Gives a => f a | Throws e t => Throws e t end.
Definition silent {A} (r : res A) : outcome A := match r with Ok a => Gives a | Err e => Throws e None end.
Definition complain (b : bool) (e : exn) (text : string) : outcome unit := if b then Gives tt else Throws e (Some text).
(** The outcome without the text. *)
Definition without_text {A} (o : outcome A) : res A := match o with Gives a => Ok a | Throws e _ => Err e end.
(** A failed check is a JaxRuntimeError. *)
Definition of_result {A} (r : result A) : outcome A :=
  match r with Returned a => Gives a | Raised e => Throws e None | CheckFailed m => Throws JaxRuntimeError (Some m) end.

Section Messages.
  Context {N : numsys} (str_scl : scl N -> string).
  Notation st := (state N).
  Notation tr := (tree (array N)).

  (** ** The editor. A validation method adds its checks in front of [rest]. *)

  (** tensoreditor.py:152-163 [_validate_same_shape] *)
  Definition m_same_shape (original new : array N) (info : string) (rest : program unit) : program unit :=
    let msg := ("
        The original tensor had shape " ++ str_shape (a_shape original) ++ ".
        The proposed new tensor has shape " ++ str_shape (a_shape new) ++ ". These did not match.
        ")%string in
    Check (check_same_shape original new) (format_error_message msg info) rest.
  (** tensoreditor.py:164-174 [_validate_same_dtype] *)
  Definition m_same_dtype (original new : array N) (info : string) (rest : program unit) : program unit :=
    let msg := ("
        Originally, the tensor had dtype " ++ str_dtype (a_dt original) ++ ".
        However, the proposed replacement has dtype " ++ str_dtype (a_dt new) ++ "
        ")%string in
    Check (check_same_dtype original new) (format_error_message msg info) rest.
  (** tensoreditor.py:176-192 [_validate_probability] *)
  Definition m_probability (tensor : array N) (info : string) (rest : program unit) : program unit :=
    Check (negb (existsb (fun v => v_ltb N v (v_zero N)) (a_data tensor))) (format_error_message "
        A tensor representing probabilities had elements less than zero
        " info)
    (Check (negb (existsb (fun v => v_ltb N (v_one N) v) (a_data tensor))) (format_error_message "
        A tensor representing probabilities had elements greater than one
        " info) rest).
  (** tensoreditor.py:193-201 [_validate_is_natural_numbers] *)
  Definition m_natural (tensor : array N) (context : string) (rest : program unit) : program unit :=
    Check (check_natural tensor) (format_error_message "
        The tensor being processed did not consist of whole
        numbers. That is, numbers >= 0. This is not allowed
        " context) rest.
  (** tensoreditor.py:202-211 [_validate_accumulator_exists]; what it returns is a condition of the callers *)
  Definition m_exists (s : st) (name context : string) (rest : program unit) : program unit :=
    let msg := ("
        Accumulator of name '" ++ name ++ "' was never setup using a define statement
        in the builder. This means you cannot set to it.
        ")%string in
    Check (check_exists s name) (format_error_message msg context) rest.
  (** tensoreditor.py:212-233 [_validate_same_pytree_structure] *)
  Definition m_structure (original new : tr) (info : string) (rest : program unit) : program unit :=
    Check (check_structure original new) (format_error_message "
           The original tensor collection or tensor does not have the 
           same tree structure as the new tensor collection or tensor.
           " info) rest.
  (** tensoreditor.py:235-279 [_validate_pytree_leaves]: the loop, from leaf number [i] on *)
  Fixpoint m_leaves (i : nat) (original new : list (array N)) (info : string) (rest : program unit) : program unit :=
    match original, new with
    | o :: original', n :: new' =>
        let msg1 := ("
            An issue occurred in leaf " ++ str_int i ++ "
            
            The original shape was " ++ str_shape (a_shape o) ++ ".
            However, the update has shape " ++ str_shape (a_shape n) ++ "
            
            These do not match.
            ")%string in
        let msg2 := ("
            An issue occurred in leaf " ++ str_int i ++ "
            
            The original dtype was " ++ str_dtype (a_dt o) ++ ".
            However, the new leaf had dtype " ++ str_dtype (a_dt n) ++ "
            
            These differences are not allowed.
            ")%string in
        Check (check_same_shape o n) (format_error_message msg1 info)
          (Check (check_same_dtype o n) (format_error_message msg2 info) (m_leaves (S i) original' new' info rest))
    | _, _ => rest
    end.
  (** tensoreditor.py:280-299 [_execute_validation] *)
  Definition m_execute (e : editor N) (function : program unit) : outcome unit :=
    of_result (execute_validation_program (String.eqb (ed_mode e) m_standard) function).

  (** tensoreditor.py:300-316 [set_probabilities] *)
  Definition m_set_probabilities (e : editor N) (values : array N) : outcome (editor N) :=
    let context := "An issue occurred while attempting to set probabilities with an Editor: " in
    let o := probabilities (ed_state e) in
    obind (m_execute e (m_same_shape o values context (m_same_dtype o values context (m_probability values context (Return tt))))) (fun _ =>
    silent (s <- replace (ed_state e) (mkR None None None (Some values) None None None None None) ;; Ok (mkEd s (ed_mode e)))).
  (** tensoreditor.py:318-335 [set_residuals] *)
  Definition m_set_residuals (e : editor N) (values : array N) : outcome (editor N) :=
    let context := "An issue occurred while attempting to set residuals with an Editor: " in
    let o := residuals (ed_state e) in
    obind (m_execute e (m_same_shape o values context (m_same_dtype o values context (m_probability values context (Return tt))))) (fun _ =>
    silent (s <- replace (ed_state e) (mkR None None (Some values) None None None None None None) ;; Ok (mkEd s (ed_mode e)))).
  (** tensoreditor.py:337-353 [set_iterations] *)
  Definition m_set_iterations (e : editor N) (values : array N) : outcome (editor N) :=
    let context := "An error occurred while attempting to set the iterations tensor using an Editor" in
    let o := iterations (ed_state e) in
    obind (m_execute e (m_same_shape o values context (m_same_dtype o values context (m_natural values context (Return tt))))) (fun _ =>
    silent (s <- replace (ed_state e) (mkR None (Some values) None None None None None None None) ;; Ok (mkEd s (ed_mode e)))).
  (** tensoreditor.py:356-381 [set_epsilon] *)
  Definition m_set_epsilon (e : editor N) (eps : scl N) : outcome (editor N) :=
    let context := "An error occurred while setting to an epsilon using an Editor" in
    let low := ("Epsilon was too low. Probabilities should be greater than or equal to zero, got " ++ str_scl eps)%string in
    let high := ("Epsilon was too high. Probabilities should be greater than or equal to zero, got " ++ str_scl eps)%string in
    obind (m_execute e (Check (s_leb N (s_zero N) eps) (format_error_message low context)
                       (Check (s_leb N eps (s_one N)) (format_error_message high context) (Return tt)))) (fun _ =>
    silent (s <- replace (ed_state e) (mkR (Some eps) None None None None None None None None) ;; Ok (mkEd s (ed_mode e)))).
  (** tensoreditor.py:396-400, 424-428: what [set_accumulator] and [set_defaults] check *)
  Definition m_like_accumulator (s : st) (name : string) (value : tr) (context : string) : program unit :=
    if dmem name (accumulators s) then
      match dlookup name (accumulators s) with
      | Ok acc => m_exists s name context (m_structure acc value context (m_leaves 0 (leaves acc) (leaves value) context (Return tt)))
      | Err e => m_exists s name context (Raise e)
      end
    else m_exists s name context (Return tt).
  (** tensoreditor.py:383-405 [set_accumulator] *)
  Definition m_set_accumulator (e : editor N) (name : string) (value : tr) : outcome (editor N) :=
    let context := "An error occurred while setting to an accumulator with an Editor:" in
    obind (m_execute e (m_like_accumulator (ed_state e) name value context)) (fun _ =>
    let accs := dset name value (accumulators (ed_state e)) in
    silent (s <- replace (ed_state e) (mkR None None None None (Some accs) None None None None) ;; Ok (mkEd s (ed_mode e)))).
  (** tensoreditor.py:406-433 [set_defaults] *)
  Definition m_set_defaults (e : editor N) (name : string) (value : tr) : outcome (editor N) :=
    let context := ("An error occurred while setting to a defaults  named '" ++ name ++ "' with an Editor:")%string in
    obind (m_execute e (m_like_accumulator (ed_state e) name value context)) (fun _ =>
    let dfs := dset name value (defaults (ed_state e)) in
    silent (s <- replace (ed_state e) (mkR None None None None None (Some dfs) None None None) ;; Ok (mkEd s (ed_mode e)))).
  (** tensoreditor.py:435-462 [set_updates] *)
  Definition m_set_updates (e : editor N) (name : string) (values : tr) : outcome (editor N) :=
    let context := ("An error occurred while setting to an update entry named '" ++ name ++ "' with an Editor")%string in
    let s0 := ed_state e in
    let checks :=
      m_exists s0 name context
        (if is_none values then Return tt
         else match dlookup name (defaults s0) with
              | Ok def => m_structure def values context (m_leaves 0 (leaves def) (leaves values) context (Return tt))
              | Err err => Raise err
              end) in
    obind (m_execute e checks) (fun _ =>
    let upds := dset name values (updates s0) in
    silent (s <- replace s0 (mkR None None None None None None (Some upds) None None) ;; Ok (mkEd s (ed_mode e)))).

  (** ** The builder *)

  (** builder.py:185-222 [_validate_definition_pytree]: the loop, from leaf number [i] on *)
  Fixpoint m_validate_leaves (batch_shape : list nat) (i : nat) (ls : list (array N)) (context : string) : outcome unit :=
    match ls with
    | [] => Gives tt
    | leaf :: ls' =>
        let msg1 := ("
                A dtype issue occurred. It was expected that the dtype would be floating for
                all entries. However, leaf " ++ str_int i ++ " was in fact of dtype " ++ str_dtype (a_dt leaf) ++ "
                ")%string in
        let n := length batch_shape in
        let msg2 := ("
                A dimensions issue occurred. It was expected any defined tensors
                will have a number of dimensions at least of number " ++ str_int n ++ ". 
                This is because that is the number of batch dimensions.
                
                However, leaf '" ++ str_int i ++ "' actually had a number of dimensions equal to " ++ str_int (length (a_shape leaf)) ++ "
                ")%string in
        let tensor_shape := firstn n (a_shape leaf) in
        let msg3 := ("
                A shape issue occurred. It was expected that the provided
                pytree would have had batch shape " ++ str_shape batch_shape ++ ". However,
                leaf '" ++ str_int i ++ "' had shape " ++ str_shape tensor_shape ++ "
                ")%string in
        obind (complain (is_floating (a_dt leaf)) TypeError (format_error_message msg1 context)) (fun _ =>
        obind (complain (negb (Nat.ltb (length (a_shape leaf)) n)) ValueError (format_error_message msg2 context)) (fun _ =>
        obind (complain (shape_eqb tensor_shape batch_shape) ValueError (format_error_message msg3 context)) (fun _ =>
        m_validate_leaves batch_shape (S i) ls' context)))
    end.
  (** builder.py:224-253 [_define] *)
  Definition m_define (s : st) (name : string) (definition : tr) (context : string) : outcome st :=
    obind (m_validate_leaves (a_shape (probabilities s)) 0 (leaves definition) context) (fun _ =>
    silent (replace s (mkR None None None None
                   (Some (dset name definition (accumulators s)))
                   (Some (dset name definition (defaults s)))
                   (Some (dset name tnone (updates s)))
                   None None))).
  (** builder.py:277-312 [define_accumulator_directly] *)
  Definition m_define_directly (s : st) (name : string) (definition : tr) : outcome st :=
    m_define s name definition "An issue occurred while defining an accumulator directly".
  (** builder.py:314-407 [define_accumulator_by_shape]; the text about a leaf of [shapes] that is no list of ints prints its
      path and class and is not given *)
  Definition m_define_by_shape (s : st) (name : string) (shapes : tree sleaf) (d : dtype) (fill : scl N) : outcome st :=
    let context := ("An issue occurred when defining an accumulator named '" ++ name ++ "' directly by shape")%string in
    let t := collapse shapes in
    obind (silent (new_leaves <- mapM (make_leaf d fill) (leaves t) ;; unflatten (structure t) new_leaves)) (fun definition =>
    m_define s name definition context).
  (** builder.py:427-436: the messages of [new_builder] *)
  Definition m_new_builder_with (em : option (option string)) (batch_shape : batch_arg)
    (core_dtype : option dtype) (eps dep : scl N) : outcome st :=
    let context := "An issue occurred while creating a new builder:" in
    obind (complain (match core_dtype with None => true | Some d => is_floating d end) ValueError
             (format_error_message "dtype of probabilities core must be floating" context)) (fun _ =>
    obind (complain (negb (s_leb N (s_one N) eps || s_leb N eps (s_zero N))) ValueError
             (format_error_message "epsilon insane: Not between 0 and 1" context)) (fun _ =>
    silent (new_builder_with em batch_shape core_dtype eps dep))).

  (** ** The controller *)

  (** controller.py:237-259 [cache_update] *)
  Definition m_cache_update (s : st) (name : string) (item : tr) : outcome st :=
    obind (complain (dmem name (updates s)) ValueError ("Accumulator with name " ++ name ++ " was never setup")%string) (fun _ =>
    match dlookup name (updates s) with
    | Err e => Throws e None
    | Ok pending =>
        obind (complain (is_none pending) RuntimeError ("Accumulator with name " ++ name ++ " was already set this iteration!")%string) (fun _ =>
        silent (replace s (mkR None None None None None None (Some (dset name item (updates s))) None None)))
    end).
  (** controller.py:294-336: the loop of [iterate_act] *)
  Fixpoint m_iterate_loop (s : st) (h : array N) (names : list string) (accs upds : dict tr) : outcome (dict tr * dict tr) :=
    match names with
    | [] => Gives (accs, upds)
    | name :: names' =>
        match (acc <- dlookup name accs ;;
               upd <- dlookup name upds ;;
               _ <- guard (negb (is_none upd)) RuntimeError ;;
               new_acc <- merge_pytrees (update_accumulator s h) acc upd ;;
               Ok (dset name new_acc accs, dset name tnone upds)) with
        | Ok (accs', upds') => m_iterate_loop s h names' accs' upds'
        | Err _ => Throws RuntimeError (Some ("An error occurred regarding accumulator named '" ++ name ++ "': 

")%string)
        end
    end.
  (** controller.py:260-353 [iterate_act] *)
  Definition m_iterate_act (s : st) (halting_probabilities : array N) : outcome st :=
    obind (complain (shape_eqb (a_shape halting_probabilities) (a_shape (probabilities s))) ValueError
             "Batch shape and shapes of halting probabilities do not match") (fun _ =>
    let h0 := a_clip01 halting_probabilities in
    obind (silent (process_probabilities s h0)) (fun '(h, residuals', probabilities') =>
    obind (m_iterate_loop s h (dkeys (accumulators s)) (accumulators s) (updates s)) (fun '(accs, upds) =>
    silent (
      let new_iterations := a_plus_one (iterations s) in
      iterations' <- a_select (halted_batches s) (iterations s) new_iterations ;;
      replace s (mkR None (Some iterations') (Some residuals') (Some probabilities')
                     (Some accs) None (Some upds) None None))))).
  (** controller.py:355-419 [reset_batches] *)
  Definition m_reset_batches (s : st) : outcome st :=
    obind (complain (negb (existsb (fun kv => negb (is_none (snd kv))) (updates s))) RuntimeError
             "Attempt to reset batches while updates are pending. Finish current iteration.") (fun _ => silent (reset_batches s)).
End Messages.
