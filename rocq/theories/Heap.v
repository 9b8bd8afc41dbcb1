(** * Objects on a heap: core/immutable.py and the methods as programs with effects

    The other model files treat a controller, viewer, builder or editor as a value. Here the same
    methods are written again over a heap of mutable objects, statement by statement: which
    dictionary is copied, which one is written, which objects are shared.

    Simplifications. Arrays and accumulator pytrees are values (JAX arrays cannot be modified; the
    containers of a nested pytree could be, by user code only: no function of the repository
    writes to one). Attribute values are booleans, strings or references. Reading a location of
    the wrong kind is a TypeError; it does not happen on the heaps the API builds. *)
From Verif Require Import Base PyTree Tensor Num Utils States Controller Builder Viewer Editor.

Definition loc := nat.
(** The four classes derived from [Immutable]. *)
Inductive cls := KController | KBuilder | KViewer | KEditor.
Inductive attr := VBool (b : bool) | VStr (s : string) | VRef (l : loc).

Section Heap.
  Context {N : numsys}.
  Notation st := (state N).
  Notation tr := (tree (array N)).

  (** states.py:31-32,166-174: the dataclass is not frozen; the three dictionaries are references. *)
  Record hstate := mkH {
    h_epsilon : scl N;
    h_iterations : array N;
    h_residuals : array N;
    h_probabilities : array N;
    h_defaults : loc;
    h_accumulators : loc;
    h_updates : loc;
    h_depression_constant : scl N;
    h_error_mode : option string
  }.
  Inductive obj :=
  | ODict (d : dict tr)
  | OState (x : hstate)
  | OInst (k : cls) (attrs : dict attr).

  Definition heap := list obj.
  (** A statement, as the sequence of its accesses to objects: it makes a new object and goes on with
      its address, reads an object (nothing if there is none at the address), overwrites one, or
      ends with a value or an exception. *)
  Inductive M (A : Type) :=
  | Done (r : res A)
  | Alloc (o : obj) (k : loc -> M A)
  | Read (l : loc) (k : option obj -> M A)
  | Write (l : loc) (o : obj) (k : M A).
  Arguments Done {A} r.
  Arguments Alloc {A} o k.
  Arguments Read {A} l k.
  Arguments Write {A} l o k.
  Definition ret {A} (a : A) : M A := Done (Ok a).
  Definition raise {A} (e : exn) : M A := Done (Err e).
  Fixpoint mbind {A B} (m : M A) (f : A -> M B) : M B :=
    match m with
    | Done (Ok a) => f a
    | Done (Err e) => Done (Err e)
    | Alloc o k => Alloc o (fun l => mbind (k l) f)
    | Read l k => Read l (fun o => mbind (k o) f)
    | Write l o k => Write l o (mbind k f)
    end.
  (** A pure computation that may raise. *)
  Definition lift {A} (r : res A) : M A := Done r.
  (** [try: m except Exception as err: raise e from err]; effects stay. *)
  Fixpoint mrewrap {A} (e : exn) (m : M A) : M A :=
    match m with
    | Done (Ok a) => Done (Ok a)
    | Done (Err _) => Done (Err e)
    | Alloc o k => Alloc o (fun l => mrewrap e (k l))
    | Read l k => Read l (fun o => mrewrap e (k o))
    | Write l o k => Write l o (mrewrap e k)
    end.

  Fixpoint put (h : heap) (l : loc) (o : obj) : heap :=
    match h, l with
    | [], _ => []
    | _ :: h', 0 => o :: h'
    | x :: h', S l' => x :: put h' l' o
    end.
  (** Running a statement without interruption: the value or the exception, and the heap it leaves
      behind in either case. A new object gets the next free address. (ThreadSpec.v runs statements
      access by access.) *)
  Fixpoint exec {A} (m : M A) (h : heap) : res A * heap :=
    match m with
    | Done r => (r, h)
    | Alloc o k => exec (k (length h)) (h ++ [o])
    | Read l k => exec (k (nth_error h l)) h
    | Write l o k => exec k (put h l o)
    end.
End Heap.
Arguments hstate N : clear implicits.
Arguments obj N : clear implicits.
Arguments heap N : clear implicits.
Arguments M N A : clear implicits.
Arguments Done {N A} r.
Arguments Alloc {N A} o k.
Arguments Read {N A} l k.
Arguments Write {N A} l o k.
Coercion exec : M >-> Funclass.
Arguments mbind {N A B} m f : simpl never.
Arguments mrewrap {N A} e m : simpl never.

Notation "x <~ e ;; k" := (mbind e (fun x => k))
  (at level 61, e at next level, right associativity).
Notation "' p <~ e ;; k" := (mbind e (fun p => k))
  (at level 61, p pattern, e at next level, right associativity).

Section Methods.
  Context {N : numsys}.
  Notation st := (state N).
  Notation tr := (tree (array N)).
  Notation M := (M N).

  (** ** Primitives *)
  Definition alloc (o : obj N) : M loc := Alloc o (fun l => ret l).
  Definition read (l : loc) : M (obj N) :=
    Read l (fun o => match o with Some o => ret o | None => raise TypeError end).
  Definition write (l : loc) (o : obj N) : M unit := Write l o (ret tt).

  Definition read_dict (l : loc) : M (dict tr) :=
    o <~ read l ;; match o with ODict d => ret d | _ => raise TypeError end.
  Definition read_state (l : loc) : M (hstate N) :=
    o <~ read l ;; match o with OState x => ret x | _ => raise TypeError end.
  Definition read_inst (l : loc) : M (cls * dict attr) :=
    o <~ read l ;; match o with OInst k a => ret (k, a) | _ => raise TypeError end.

  (** [d.copy()], [d[k] = v], [d.pop(k)], [{}] *)
  Definition dict_copy (l : loc) : M loc := d <~ read_dict l ;; alloc (ODict d).
  Definition dict_set (l : loc) (k : string) (v : tr) : M unit :=
    d <~ read_dict l ;; write l (ODict (dset k v d)).
  Definition dict_pop (l : loc) (k : string) : M unit :=
    d <~ read_dict l ;; d' <~ lift (dpop k d) ;; write l (ODict d').
  Definition dict_new : M loc := alloc (ODict []).

  (** ** core/immutable.py *)

  Definition a_flag : string := "_is_immutable".
  Definition a_state : string := "state".
  Definition a_error_mode : string := "error_mode".
  (** Truth value of an attribute value. *)
  Definition truthy (v : attr) : M bool :=
    match v with
    | VBool b => ret b
    | VStr s => ret (negb (String.eqb s ""))
    | VRef l => Read l (fun o => ret match o with Some (ODict []) => false | _ => true end)
    end.
  (** Names bound to a property without setter: controller.py:95-135, builder.py:135-160,
      viewer.py:57-81, tensoreditor.py:123-148. [object.__setattr__] refuses them. *)
  Definition properties (k : cls) : list string :=
    match k with
    | KController =>
        ["depression_constant"; "probabilities"; "residuals"; "iterations"; "accumulators";
         "halt_threshold"; "halted_batches"; "is_completely_halted"; "is_any_halted";
         "updates_ready_to_commit"; "has_cached_updates"]
    | KBuilder | KEditor =>
        ["epsilon"; "probabilities"; "residuals"; "iterations"; "defaults"; "accumulators";
         "updates"]
    | KViewer =>
        ["probabilities"; "residuals"; "iterations"; "accumulators"; "defaults"; "updates";
         "halt_threshold"; "halted_batches"]
    end%string.
  (** immutable.py:6-9 [Immutable.__setattr__] *)
  Definition setattr (self : loc) (key : string) (value : attr) : M unit :=
    '(k, attrs) <~ read_inst self ;;
    locked <~ match dget a_flag attrs with Some v => truthy v | None => ret false end ;;
    if locked && negb (String.eqb key a_flag) then raise AttributeError
    else if existsb (String.eqb key) (properties k) then raise AttributeError
    else write self (OInst k (dset key value attrs)).
  (** [del self.key]: the class defines no [__delattr__], so this is [object.__delattr__]. *)
  Definition delattr (self : loc) (key : string) : M unit :=
    '(k, attrs) <~ read_inst self ;;
    if dmem key attrs then write self (OInst k (ddel key attrs)) else raise AttributeError.
  (** immutable.py:2-3 [__init__], 4-5 [make_immutable] *)
  Definition immutable_init (self : loc) : M unit := setattr self a_flag (VBool false).
  Definition make_immutable (self : loc) : M unit := setattr self a_flag (VBool true).

  (** ** Constructors *)

  (** controller.py:441-444, viewer.py:208-217, builder.py:465-477 [__init__] *)
  Definition new_instance (k : cls) (state : loc) : M loc :=
    self <~ alloc (OInst k []) ;;
    _ <~ immutable_init self ;;
    _ <~ setattr self a_state (VRef state) ;;
    _ <~ make_immutable self ;;
    ret self.
  (** tensoreditor.py:506-520 [__init__] *)
  Definition new_editor (state : loc) (mode : string) : M loc :=
    self <~ alloc (OInst KEditor []) ;;
    _ <~ immutable_init self ;;
    _ <~ setattr self a_error_mode (VStr mode) ;;
    _ <~ setattr self a_state (VRef state) ;;
    _ <~ make_immutable self ;;
    ret self.

  (** ** Reading *)

  (** [self.state] *)
  Definition self_state (self : loc) : M loc :=
    '(_, attrs) <~ read_inst self ;;
    match dget a_state attrs with
    | Some (VRef l) => ret l
    | Some _ => raise TypeError
    | None => raise AttributeError
    end.
  (** [self.error_mode] *)
  Definition self_mode (self : loc) : M string :=
    '(_, attrs) <~ read_inst self ;;
    match dget a_error_mode attrs with
    | Some (VStr m) => ret m
    | Some _ => raise TypeError
    | None => raise AttributeError
    end.
  (** A state object read out completely: what the numeric helper methods, which only read, see. *)
  Definition deref (l : loc) : M st :=
    x <~ read_state l ;;
    dfs <~ read_dict (h_defaults x) ;;
    accs <~ read_dict (h_accumulators x) ;;
    upds <~ read_dict (h_updates x) ;;
    ret (mkState (h_epsilon x) (h_iterations x) (h_residuals x) (h_probabilities x)
                 dfs accs upds (h_depression_constant x) (h_error_mode x)).

  (** states.py:126-165 [replace] with dictionaries by reference. *)
  Record hreplace_args := mkHR {
    hr_epsilon : option (scl N);
    hr_iterations : option (array N);
    hr_residuals : option (array N);
    hr_probabilities : option (array N);
    hr_accumulators : option loc;
    hr_defaults : option loc;
    hr_updates : option loc;
    hr_depression_constant : option (scl N);
    hr_error_mode : option string
  }.
  Definition hreplace (l : loc) (r : hreplace_args) : M loc :=
    x <~ read_state l ;;
    dep <~ match hr_depression_constant r with
           | None => ret (h_depression_constant x)
           | Some _ => raise AttributeError
           end ;;
    em <~ match hr_error_mode r with
          | None => ret (h_error_mode x)
          | Some _ => raise AttributeError
          end ;;
    alloc (OState (mkH (default (hr_epsilon r) (h_epsilon x))
                       (default (hr_iterations r) (h_iterations x))
                       (default (hr_residuals r) (h_residuals x))
                       (default (hr_probabilities r) (h_probabilities x))
                       (default (hr_defaults r) (h_defaults x))
                       (default (hr_accumulators r) (h_accumulators x))
                       (default (hr_updates r) (h_updates x))
                       dep em)).

  (** ** Controller methods *)

  (** controller.py:237-259 [cache_update] *)
  Definition h_cache_update (self : loc) (name : string) (item : tr) : M loc :=
    state <~ self_state self ;;
    x <~ read_state state ;;
    d <~ read_dict (h_updates x) ;;
    match dget name d with
    | None => raise ValueError
    | Some pending =>
        if negb (is_none pending) then raise RuntimeError
        else
          update <~ dict_copy (h_updates x) ;;
          _ <~ dict_set update name item ;;
          new_state <~ hreplace state (mkHR None None None None None None (Some update) None None) ;;
          new_instance KController new_state
    end.

  (** controller.py:294-336: the loop of [iterate_act]; [accs] and [upds] are the copies. *)
  Fixpoint h_iterate_loop (self : loc) (h : array N) (names : list string) (accs upds : loc)
    : M unit :=
    match names with
    | [] => ret tt
    | name :: names' =>
        _ <~ mrewrap RuntimeError (
           da <~ read_dict accs ;;
           acc <~ lift (dlookup name da) ;;
           du <~ read_dict upds ;;
           upd <~ lift (dlookup name du) ;;
           _ <~ lift (guard (negb (is_none upd)) RuntimeError) ;;
           state <~ self_state self ;;
           s <~ deref state ;;
           new_acc <~ lift (merge_pytrees (update_accumulator s h) acc upd) ;;
           _ <~ dict_set accs name new_acc ;;
           dict_set upds name tnone) ;;
        h_iterate_loop self h names' accs upds
    end.

  (** controller.py:260-353 [iterate_act] *)
  Definition h_iterate_act (self : loc) (halting_probabilities : array N) : M loc :=
    state <~ self_state self ;;
    s <~ deref state ;;
    _ <~ lift (guard (shape_eqb (a_shape halting_probabilities) (a_shape (probabilities s)))
                 ValueError) ;;
    let h0 := a_clip01 halting_probabilities in
    '(h, residuals', probabilities') <~ lift (process_probabilities s h0) ;;
    x <~ read_state state ;;
    accs <~ dict_copy (h_accumulators x) ;;
    upds <~ dict_copy (h_updates x) ;;
    da <~ read_dict accs ;;
    _ <~ h_iterate_loop self h (dkeys da) accs upds ;;
    s' <~ deref state ;;
    let new_iterations := a_plus_one (iterations s') in
    iterations' <~ lift (a_select (halted_batches s') (iterations s') new_iterations) ;;
    new_state <~ hreplace state (mkHR None (Some iterations') (Some residuals') (Some probabilities')
                                   (Some accs) None (Some upds) None None) ;;
    new_instance KController new_state.

  (** controller.py:378-408: the loop of [reset_batches]; [out] is the dictionary made at 377. *)
  Fixpoint h_reset_loop (self : loc) (unhalted : tensor bool) (names : list string) (out : loc)
    : M unit :=
    match names with
    | [] => ret tt
    | name :: names' =>
        state <~ self_state self ;;
        s <~ deref state ;;
        acc <~ lift (dlookup name (accumulators s)) ;;
        def <~ lift (dlookup name (defaults s)) ;;
        new_acc <~ lift (merge_pytrees (reset_leaf unhalted acc) acc def) ;;
        _ <~ dict_set out name new_acc ;;
        h_reset_loop self unhalted names' out
    end.

  (** controller.py:356-420 [reset_batches] *)
  Definition h_reset_batches (self : loc) : M loc :=
    state <~ self_state self ;;
    s <~ deref state ;;
    _ <~ lift (guard (negb (has_cached_updates s)) RuntimeError) ;;
    let unhalted := tnot (halted_batches s) in
    its <~ lift (a_mul_bool (iterations s) unhalted) ;;
    probs <~ lift (a_mul_bool (probabilities s) unhalted) ;;
    ress <~ lift (a_mul_bool (residuals s) unhalted) ;;
    out <~ dict_new ;;
    _ <~ h_reset_loop self unhalted (dkeys (accumulators s)) out ;;
    new_state <~ hreplace state (mkHR None (Some its) (Some ress) (Some probs) (Some out)
                                   None None None None) ;;
    new_instance KController new_state.

  (** [k(x.state)] for an instance [x]: controller.py:424-430 [make_viewer], builder.py:459-464 and
      tensoreditor.py:500-505 [build]. The new object shares the state object. *)
  Definition h_convert (k : cls) (self : loc) : M loc :=
    state <~ self_state self ;; new_instance k state.
  (** controller.py:433-434, viewer.py:193-198, tensoreditor.py:498-499 [save]: the state object
      itself. *)
  Definition h_save (self : loc) : M loc := self_state self.
  (** controller.py:435-437, viewer.py:200-207 [load] *)
  Definition h_load (k : cls) (state : loc) : M loc := new_instance k state.

  (** ** Viewer methods *)

  (** viewer.py:84-132 [transform]: the comprehensions (104-119) make three new dictionaries. *)
  Definition h_transform (self : loc) (f : array N -> res (array N)) : M loc :=
    state <~ self_state self ;;
    '(its, ress, probs, accs, dfs, upds) <~ mrewrap RuntimeError (
       s <~ deref state ;;
       its <~ lift (f (iterations s)) ;;
       ress <~ lift (f (residuals s)) ;;
       probs <~ lift (f (probabilities s)) ;;
       da <~ lift (dmapM (tree_mapM f) (accumulators s)) ;;
       accs <~ alloc (ODict da) ;;
       dd <~ lift (dmapM (tree_mapM f) (defaults s)) ;;
       dfs <~ alloc (ODict dd) ;;
       du <~ lift (dmapM (tree_mapM f) (defaults s)) ;;
       upds <~ alloc (ODict du) ;;
       ret (its, ress, probs, accs, dfs, upds)) ;;
    new_state <~ hreplace state (mkHR None (Some its) (Some ress) (Some probs) (Some accs)
                                   (Some dfs) (Some upds) None None) ;;
    new_instance KViewer new_state.
  (** viewer.py:134-160 [mask_data] *)
  Definition h_mask_data (self : loc) (mask_dtype : dtype) (mask : tensor bool) : M loc :=
    _ <~ lift (guard (dtype_eqb mask_dtype DBool) ValueError) ;;
    state <~ self_state self ;;
    x <~ read_state state ;;
    _ <~ lift (guard (shape_eqb (shape mask) (a_shape (h_probabilities x))) ValueError) ;;
    h_transform self (mask_leaf mask).
  (** viewer.py:162-174, 176-191 *)
  Definition h_unhalted_only (self : loc) : M loc :=
    state <~ self_state self ;;
    s <~ deref state ;;
    h_mask_data self DBool (tnot (halted_batches s)).
  Definition h_halted_only (self : loc) : M loc :=
    state <~ self_state self ;;
    s <~ deref state ;;
    h_mask_data self DBool (halted_batches s).

  (** ** Builder methods *)

  (** builder.py:410-457 [new_builder] as committed: the three dictionaries (442-444) exist when
      the constructor call raises. *)
  Definition h_new_builder (em : option (option string)) (batch_shape : batch_arg)
    (core_dtype : option dtype) (eps dep : scl N) : M loc :=
    _ <~ lift (guard (match core_dtype with None => true | Some d => is_floating d end) ValueError) ;;
    _ <~ lift (guard (negb (s_leb N (s_one N) eps || s_leb N eps (s_zero N))) ValueError) ;;
    sh <~ lift (to_shape (batch_dims batch_shape)) ;;
    let zeros := a_full sh (v_zero N) (default core_dtype DF32) in
    accs <~ dict_new ;;
    dfs <~ dict_new ;;
    upds <~ dict_new ;;
    m <~ match em with None => raise TypeError | Some m => ret m end ;;
    state <~ alloc (OState (mkH eps zeros zeros zeros dfs accs upds dep m)) ;;
    new_instance KBuilder state.
  (** builder.py:224-253 [_define] *)
  Definition h_define (self : loc) (name : string) (definition : tr) : M loc :=
    state <~ self_state self ;;
    s <~ deref state ;;
    _ <~ lift (validate_definition s definition) ;;
    x <~ read_state state ;;
    dfs <~ dict_copy (h_defaults x) ;;
    accs <~ dict_copy (h_accumulators x) ;;
    upds <~ dict_copy (h_updates x) ;;
    _ <~ dict_set dfs name definition ;;
    _ <~ dict_set accs name definition ;;
    _ <~ dict_set upds name tnone ;;
    new_state <~ hreplace state (mkHR None None None None (Some accs) (Some dfs) (Some upds)
                                   None None) ;;
    new_instance KBuilder new_state.
  (** builder.py:314-407 [define_accumulator_by_shape] *)
  Definition h_define_by_shape (self : loc) (name : string) (shapes : tree sleaf) (d : dtype)
    (fill : scl N) : M loc :=
    let t := collapse shapes in
    new_leaves <~ lift (mapM (make_leaf d fill) (leaves t)) ;;
    definition <~ lift (unflatten (structure t) new_leaves) ;;
    h_define self name definition.
  (** builder.py:255-275 [_delete_definition] *)
  Definition h_delete_definition (self : loc) (name : string) : M loc :=
    state <~ self_state self ;;
    x <~ read_state state ;;
    dfs <~ dict_copy (h_defaults x) ;;
    accs <~ dict_copy (h_accumulators x) ;;
    upds <~ dict_copy (h_updates x) ;;
    _ <~ dict_pop dfs name ;;
    _ <~ dict_pop accs name ;;
    _ <~ dict_pop upds name ;;
    new_state <~ hreplace state (mkHR None None None None (Some accs) (Some dfs) (Some upds)
                                   None None) ;;
    new_instance KBuilder new_state.

  (** ** Editor methods *)

  (** tensoreditor.py:280-299 [_execute_validation]; the checks only read. *)
  Definition h_execute_checks (self : loc) (checks : st -> res (list bool)) : M unit :=
    mode <~ self_mode self ;;
    state <~ self_state self ;;
    s <~ deref state ;;
    lift (execute_checks (mkEd s mode) (checks s)).
  (** The last three lines of the setters of arrays and of epsilon
      (tensoreditor.py:315-316, 334-335, 352-353, 380-381). *)
  Definition h_set_field (self : loc) (r : hreplace_args) : M loc :=
    state <~ self_state self ;;
    new_state <~ hreplace state r ;;
    mode <~ self_mode self ;;
    new_editor new_state mode.
  (** tensoreditor.py:300-316, 318-335, 337-353, 356-381 *)
  Definition h_set_probabilities (self : loc) (values : array N) : M loc :=
    _ <~ h_execute_checks self (fun s =>
           Ok (check_same_shape (probabilities s) values
               :: check_same_dtype (probabilities s) values :: checks_probability values)) ;;
    h_set_field self (mkHR None None None (Some values) None None None None None).
  Definition h_set_residuals (self : loc) (values : array N) : M loc :=
    _ <~ h_execute_checks self (fun s =>
           Ok (check_same_shape (residuals s) values
               :: check_same_dtype (residuals s) values :: checks_probability values)) ;;
    h_set_field self (mkHR None None (Some values) None None None None None None).
  Definition h_set_iterations (self : loc) (values : array N) : M loc :=
    _ <~ h_execute_checks self (fun s =>
           Ok [check_same_shape (iterations s) values; check_same_dtype (iterations s) values;
               check_natural values]) ;;
    h_set_field self (mkHR None (Some values) None None None None None None None).
  Definition h_set_epsilon (self : loc) (eps : scl N) : M loc :=
    _ <~ h_execute_checks self (fun s => Ok [s_leb N (s_zero N) eps; s_leb N eps (s_one N)]) ;;
    h_set_field self (mkHR (Some eps) None None None None None None None None).
  (** tensoreditor.py:383-405 [set_accumulator], 406-433 [set_defaults], 435-462 [set_updates] *)
  Definition h_set_accumulator (self : loc) (name : string) (value : tr) : M loc :=
    _ <~ h_execute_checks self (fun s => checks_like_accumulator s name value) ;;
    state <~ self_state self ;;
    x <~ read_state state ;;
    accs <~ dict_copy (h_accumulators x) ;;
    _ <~ dict_set accs name value ;;
    h_set_field self (mkHR None None None None (Some accs) None None None None).
  Definition h_set_defaults (self : loc) (name : string) (value : tr) : M loc :=
    _ <~ h_execute_checks self (fun s => checks_like_accumulator s name value) ;;
    state <~ self_state self ;;
    x <~ read_state state ;;
    dfs <~ dict_copy (h_defaults x) ;;
    _ <~ dict_set dfs name value ;;
    h_set_field self (mkHR None None None None None (Some dfs) None None None).
  Definition h_set_updates (self : loc) (name : string) (values : tr) : M loc :=
    _ <~ h_execute_checks self (fun s => checks_updates s name values) ;;
    state <~ self_state self ;;
    x <~ read_state state ;;
    upds <~ dict_copy (h_updates x) ;;
    _ <~ dict_set upds name values ;;
    h_set_field self (mkHR None None None None None None (Some upds) None None).
  (** tensoreditor.py:464-479 [edit_controller], 481-496 [edit_save] *)
  Definition h_edit_save (state : loc) (mode : string) : M loc :=
    _ <~ lift (guard (existsb (String.eqb mode) error_modes) ValueError) ;;
    new_editor state mode.
  Definition h_edit_controller (controller : loc) (mode : string) : M loc :=
    _ <~ lift (guard (existsb (String.eqb mode) error_modes) ValueError) ;;
    state <~ self_state controller ;;
    new_editor state mode.

  (** ** Pytree round trip *)

  (** [tree_unflatten(treedef, leaves)] of a flattened instance: controller.py:446-455 and the like.
      [asdict] (states.py:183) copies, so nothing is shared with the original. *)
  Definition h_rebuild (mk : loc -> M loc) (self : loc) : M loc :=
    state <~ self_state self ;;
    s <~ deref state ;;
    let '(flat, td) := tree_flatten_state s in
    s' <~ lift (tree_unflatten_state td flat) ;;
    dfs <~ alloc (ODict (defaults s')) ;;
    accs <~ alloc (ODict (accumulators s')) ;;
    upds <~ alloc (ODict (updates s')) ;;
    state' <~ alloc (OState (mkH (epsilon s') (iterations s') (residuals s') (probabilities s')
                               dfs accs upds (depression_constant s') (error_mode s'))) ;;
    mk state'.
End Methods.
Arguments hreplace_args N : clear implicits.
