(** * What a user can see of objects on a heap, and histories of calls on a pool of objects *)
From Verif Require Import Base PyTree Tensor Num Utils States Controller Builder Viewer Editor Heap.

Section HeapSpec.
  Context {N : numsys}.
  Notation st := (state N).
  Notation tr := (tree (array N)).

  (** The contents of an object: what its properties (and theirs) return. *)
  Inductive pyval :=
  | PController (s : st)
  | PBuilder (s : st)
  | PViewer (s : st)
  | PEditor (e : editor N)
  | PState (s : st).

  Definition view_dict (h : heap N) (l : loc) : option (dict tr) :=
    match nth_error h l with Some (ODict d) => Some d | _ => None end.
  Definition view_state (h : heap N) (l : loc) : option st :=
    match nth_error h l with
    | Some (OState x) =>
        match view_dict h (h_defaults x), view_dict h (h_accumulators x), view_dict h (h_updates x) with
        | Some dfs, Some accs, Some upds =>
            Some (mkState (h_epsilon x) (h_iterations x) (h_residuals x) (h_probabilities x)
                          dfs accs upds (h_depression_constant x) (h_error_mode x))
        | _, _, _ => None
        end
    | _ => None
    end.
  Definition view (h : heap N) (l : loc) : option pyval :=
    match nth_error h l with
    | Some (OState _) =>
        match view_state h l with Some s => Some (PState s) | None => None end
    | Some (OInst k attrs) =>
        match dget "state"%string attrs with
        | Some (VRef ls) =>
            match view_state h ls with
            | None => None
            | Some s =>
                match k with
                | KController => Some (PController s)
                | KBuilder => Some (PBuilder s)
                | KViewer => Some (PViewer s)
                | KEditor =>
                    match dget "error_mode"%string attrs with
                    | Some (VStr m) => Some (PEditor (mkEd s m))
                    | _ => None
                    end
                end
            end
        | _ => None
        end
    | _ => None
    end.

  (** ** Calls *)

  (** The methods of the four classes, and the class methods [load], [edit_save] and
      [edit_controller] with their argument in the place of the receiver. *)
  Inductive method :=
  | MCache (name : string) (item : tr) | MIter (p : array N) | MReset | MMakeViewer
  | MSave | MLoadController | MLoadViewer
  | MTransform (f : array N -> res (array N)) | MMask (d : dtype) (m : tensor bool)
  | MUnhalted | MHalted
  | MDefine (name : string) (t : tr)
  | MDefineByShape (name : string) (shapes : tree sleaf) (d : dtype) (fill : scl N)
  | MDelete (name : string) | MBuild
  | MSetProbabilities (a : array N) | MSetResiduals (a : array N) | MSetIterations (a : array N)
  | MSetEpsilon (x : scl N) | MSetAccumulator (name : string) (t : tr)
  | MSetDefaults (name : string) (t : tr) | MSetUpdates (name : string) (t : tr)
  | MEditController (mode : string) | MEditSave (mode : string)
  | MRoundTrip.

  (** On values: the functions of the other model files. *)
  Definition fmap {A B} (f : A -> B) (r : res A) : res B :=
    match r with Ok a => Ok (f a) | Err e => Err e end.
  Definition pure_call (m : method) (v : pyval) : res pyval :=
    match m, v with
    | MCache name item, PController s => fmap PController (cache_update s name item)
    | MIter p, PController s => fmap PController (iterate_act s p)
    | MReset, PController s => fmap PController (reset_batches s)
    | MMakeViewer, PController s => Ok (PViewer (make_viewer s))
    | MSave, PController s => Ok (PState (save s))
    | MSave, PViewer s => Ok (PState s)
    | MSave, PEditor e => Ok (PState (editor_save e))
    | MLoadController, PState s => Ok (PController (load s))
    | MLoadViewer, PState s => Ok (PViewer s)
    | MTransform f, PViewer s => fmap PViewer (transform s f)
    | MMask d mk, PViewer s => fmap PViewer (mask_data s d mk)
    | MUnhalted, PViewer s => fmap PViewer (unhalted_only s)
    | MHalted, PViewer s => fmap PViewer (halted_only s)
    | MDefine name t, PBuilder s => fmap PBuilder (define_directly s name t)
    | MDefineByShape name sh d x, PBuilder s => fmap PBuilder (define_by_shape s name sh d x)
    | MDelete name, PBuilder s => fmap PBuilder (delete_definition s name)
    | MBuild, PBuilder s => Ok (PController (build s))
    | MBuild, PEditor e => Ok (PController (editor_build e))
    | MSetProbabilities a, PEditor e => fmap PEditor (set_probabilities e a)
    | MSetResiduals a, PEditor e => fmap PEditor (set_residuals e a)
    | MSetIterations a, PEditor e => fmap PEditor (set_iterations e a)
    | MSetEpsilon x, PEditor e => fmap PEditor (set_epsilon e x)
    | MSetAccumulator name t, PEditor e => fmap PEditor (set_accumulator e name t)
    | MSetDefaults name t, PEditor e => fmap PEditor (set_defaults e name t)
    | MSetUpdates name t, PEditor e => fmap PEditor (set_updates e name t)
    | MEditController mode, PController s => fmap PEditor (edit_controller s mode)
    | MEditSave mode, PState s => fmap PEditor (edit_save s mode)
    | MRoundTrip, PController s =>
        fmap PController (unflatten_controller (snd (flatten_controller s)) (fst (flatten_controller s)))
    | MRoundTrip, PViewer s =>
        fmap PViewer (unflatten_viewer (snd (flatten_viewer s)) (fst (flatten_viewer s)))
    | MRoundTrip, PBuilder s =>
        fmap PBuilder (unflatten_builder (snd (flatten_builder s)) (fst (flatten_builder s)))
    | MRoundTrip, PEditor e =>
        fmap PEditor (unflatten_editor (snd (flatten_editor e)) (fst (flatten_editor e)))
    | _, _ => Err AttributeError
    end.

  (** On the heap: the programs of Heap.v, dispatched on the class of the receiver. *)
  Definition heap_call (m : method) (l : loc) : M N loc :=
    o <~ read l ;;
    match m, o with
    | MCache name item, OInst KController _ => h_cache_update l name item
    | MIter p, OInst KController _ => h_iterate_act l p
    | MReset, OInst KController _ => h_reset_batches l
    | MMakeViewer, OInst KController _ => h_convert KViewer l
    | MSave, OInst KController _ => h_save l
    | MSave, OInst KViewer _ => h_save l
    | MSave, OInst KEditor _ => h_save l
    | MLoadController, OState _ => h_load KController l
    | MLoadViewer, OState _ => h_load KViewer l
    | MTransform f, OInst KViewer _ => h_transform l f
    | MMask d mk, OInst KViewer _ => h_mask_data l d mk
    | MUnhalted, OInst KViewer _ => h_unhalted_only l
    | MHalted, OInst KViewer _ => h_halted_only l
    | MDefine name t, OInst KBuilder _ => h_define l name t
    | MDefineByShape name sh d x, OInst KBuilder _ => h_define_by_shape l name sh d x
    | MDelete name, OInst KBuilder _ => h_delete_definition l name
    | MBuild, OInst KBuilder _ => h_convert KController l
    | MBuild, OInst KEditor _ => h_convert KController l
    | MSetProbabilities a, OInst KEditor _ => h_set_probabilities l a
    | MSetResiduals a, OInst KEditor _ => h_set_residuals l a
    | MSetIterations a, OInst KEditor _ => h_set_iterations l a
    | MSetEpsilon x, OInst KEditor _ => h_set_epsilon l x
    | MSetAccumulator name t, OInst KEditor _ => h_set_accumulator l name t
    | MSetDefaults name t, OInst KEditor _ => h_set_defaults l name t
    | MSetUpdates name t, OInst KEditor _ => h_set_updates l name t
    | MEditController mode, OInst KController _ => h_edit_controller l mode
    | MEditSave mode, OState _ => h_edit_save l mode
    | MRoundTrip, OInst KEditor _ =>
        mode <~ self_mode l ;; h_rebuild (fun ls => new_editor ls mode) l
    | MRoundTrip, OInst k _ => h_rebuild (new_instance k) l
    | _, _ => raise AttributeError
    end.

  (** ** Histories

      The user holds a pool of objects; a call names one of them, and its result joins the pool.
      A call that raises adds nothing. [NewBuilder] has no receiver. *)
  Inductive hcall :=
  | On (i : nat) (m : method)
  | NewBuilder (em : option (option string)) (b : batch_arg) (d : option dtype) (eps dep : scl N).

  Definition outcome {A} (r : res A) : option exn := match r with Ok _ => None | Err e => Some e end.

  Definition heap_do (p : list loc) (c : hcall) : M N loc :=
    match c with
    | On i m => match nth_error p i with Some l => heap_call m l | None => raise NameError end
    | NewBuilder em b d eps dep => h_new_builder em b d eps dep
    end.
  Fixpoint heap_run (p : list loc) (h : heap N) (cs : list hcall)
    : list (option exn) * list loc * heap N :=
    match cs with
    | [] => ([], p, h)
    | c :: cs' =>
        let '(r, h1) := heap_do p c h in
        let p1 := match r with Ok l => p ++ [l] | Err _ => p end in
        let '(es, p2, h2) := heap_run p1 h1 cs' in
        (outcome r :: es, p2, h2)
    end.

  Definition pure_do (p : list pyval) (c : hcall) : res pyval :=
    match c with
    | On i m => match nth_error p i with Some v => pure_call m v | None => Err NameError end
    | NewBuilder em b d eps dep => fmap PBuilder (new_builder_with em b d eps dep)
    end.
  Fixpoint pure_run (p : list pyval) (cs : list hcall) : list (option exn) * list pyval :=
    match cs with
    | [] => ([], p)
    | c :: cs' =>
        let r := pure_do p c in
        let p1 := match r with Ok v => p ++ [v] | Err _ => p end in
        let '(es, p2) := pure_run p1 cs' in
        (outcome r :: es, p2)
    end.

  (** ** What user code can do with references it is handed *)

  (** The properties [accumulators], [defaults], [updates] return the dictionary object itself. *)
  Definition dict_of (field : hstate N -> loc) (l : loc) : M N loc :=
    state <~ self_state l ;; x <~ read_state state ;; ret (field x).
  (** [x.accumulators[k] = v] and the like *)
  Definition assign_item (field : hstate N -> loc) (l : loc) (k : string) (v : tr) : M N unit :=
    d <~ dict_of field l ;; dict_set d k v.
  (** [x.save().epsilon = v]: the dataclass is mutable *)
  Definition assign_epsilon (l : loc) (v : scl N) : M N unit :=
    state <~ h_save l ;;
    x <~ read_state state ;;
    write state (OState (mkH v (h_iterations x) (h_residuals x) (h_probabilities x) (h_defaults x)
                             (h_accumulators x) (h_updates x) (h_depression_constant x)
                             (h_error_mode x))).

  (** Every object on the heap went through its constructor: [make_immutable] was called last. *)
  Definition constructed (h : heap N) : Prop :=
    forall l k attrs, nth_error h l = Some (OInst k attrs) ->
      dget "_is_immutable"%string attrs = Some (VBool true).
  (** Attempts [x.key = value], each in a [try]; the outcomes. *)
  Fixpoint assignments (h : heap N) (xs : list (loc * string * attr)) : list (option exn) * heap N :=
    match xs with
    | [] => ([], h)
    | (l, key, v) :: xs' =>
        let '(r, h1) := setattr l key v h in
        let '(es, h2) := assignments h1 xs' in
        (outcome r :: es, h2)
    end.

  (** Python's truth value testing of what an attribute can hold: False, the empty text and an empty
      dictionary are false, all else is true. *)
  Inductive counts_as_true (h : heap N) : attr -> Prop :=
  | true_bool : counts_as_true h (VBool true)
  | true_text c s : counts_as_true h (VStr (String c s))
  | true_dict l e d : nth_error h l = Some (ODict (e :: d)) -> counts_as_true h (VRef l)
  | true_object l : (forall d, nth_error h l <> Some (ODict d)) -> counts_as_true h (VRef l).
  (** The object accepts an assignment to [key]: its flag is missing or false, or the assignment is to
      the flag; and [key] is not the name of a property of its class. *)
  Definition accepts (h : heap N) (k : cls) (attrs : dict attr) (key : string) : Prop :=
    ~ In key (properties k) /\
    (key = "_is_immutable"%string \/ forall v, dget "_is_immutable"%string attrs = Some v -> ~ counts_as_true h v).
  (** The setters of an editor. *)
  Inductive setter : method -> Prop :=
  | set_p a : setter (MSetProbabilities a) | set_r a : setter (MSetResiduals a) | set_i a : setter (MSetIterations a)
  | set_e x : setter (MSetEpsilon x) | set_a name t : setter (MSetAccumulator name t)
  | set_d name t : setter (MSetDefaults name t) | set_u name t : setter (MSetUpdates name t).
  (** The arguments of [replace] with the dictionaries looked up. *)
  Definition looked_up (h : heap N) (o : option loc) (o' : option (dict tr)) : Prop :=
    match o, o' with
    | None, None => True
    | Some l, Some d => view_dict h l = Some d
    | _, _ => False
    end.
  Record same_arguments (h : heap N) (r : hreplace_args N) (r' : replace_args N) : Prop := {
    sa_eps : r_epsilon r' = hr_epsilon r;
    sa_i : r_iterations r' = hr_iterations r;
    sa_r : r_residuals r' = hr_residuals r;
    sa_p : r_probabilities r' = hr_probabilities r;
    sa_acc : looked_up h (hr_accumulators r) (r_accumulators r');
    sa_def : looked_up h (hr_defaults r) (r_defaults r');
    sa_upd : looked_up h (hr_updates r) (r_updates r');
    sa_dep : r_depression_constant r' = hr_depression_constant r;
    sa_mode : r_error_mode r' = hr_error_mode r
  }.
End HeapSpec.
Arguments pyval N : clear implicits.
Arguments method N : clear implicits.
Arguments hcall N : clear implicits.
