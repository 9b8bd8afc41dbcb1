(** * Vocabulary: what can be wrong with what a layer hands back, with two pytrees or with the operands of an operator, and how the
    error says so. Nothing here models repository code; the sentences are those of the repository. *)
From Coq Require Import Ascii.
From Verif Require Import Base PyTree Tensor Num Utils States Layers Wf UtilsSpec LayerSpec PyStr Messages MessagesSpec.
Open Scope string_scope. Open Scope list_scope.

(** ** Layers *)
Section Contract.
  Context {N : numsys} (str_controller : string) (str_class : tree (array N) -> string).
  Notation st := (state N).
  Notation tr := (tree (array N)).

  (** The rules of the contract of a layer that can be broken. *)
  Inductive breach :=
  | NotAController (cls : string)
  | NoAccumulators
  | NotATuple (cls : string)
  | WrongLength (n : nat)
  | SameController
  | NeverCommitted
  | Incomplete.

  (** Every accumulator has an update that waits to be committed; some but not all have. *)
  Definition all_waiting (c : st) : Prop := forall k u, In (k, u) (updates c) -> is_none u = false.
  Definition some_waiting (c : st) : Prop := exists k u, In (k, u) (updates c) /\ is_none u = false.
  (** The controller is rightly accused of [x]. *)
  Definition uncommitted (c : st) (x : breach) : Prop :=
    match x with
    | NeverCommitted => all_waiting c
    | Incomplete => some_waiting c /\ ~ all_waiting c
    | _ => False
    end.
  (** The result of [make_controller] breaks the rule. *)
  Definition made_breach (m : made N) (x : breach) : Prop :=
    match x with
    | NotAController cls => exists t, m = MOther t /\ cls = str_class t
    | NoAccumulators => exists c, m = MCtrl c /\ accumulators c = []
    | _ => False
    end.
  (** The result of [run_iteration] has the wrong form. *)
  Definition form_breach (r : ret N) (x : breach) : Prop :=
    match x with
    | NotATuple cls => exists t, r = ROther t /\ cls = str_class t
    | WrongLength n => exists l, r = RTuple l /\ n = length l /\ n <> 2
    | NotAController cls => exists t y, r = RTuple [IObj t; y] /\ cls = str_class t
    | SameController => exists y, r = RTuple [ISame; y]
    | _ => False
    end.

  Definition breach_exception (x : breach) : exn := match x with NotAController _ | NotATuple _ => TypeError | _ => RuntimeError end.
  Definition breach_explanation (x : breach) : list string :=
    match x with
    | NotAController cls =>
        shown ["Expected to be given a result of type " ++ str_controller ++ ". "; "However, we instead got a result of type " ++ cls]
    | NoAccumulators =>
        shown ["An empty controller was defined. This cannot hold anything, and so is"; "not allowed."; "";
               "It is possible you did not remember that the builder is not mutable. Did you use the "; "proper syntax of:"; "";
               "builder = builder.define_...your definition"; ""; "Rather than:"; ""; "builder.define_...your definition"; "";
               "when defining your accumulators using the builder?"]
    | NotATuple cls => shown ["Expected to see tuple, but instead got type " ++ cls]
    | WrongLength n => shown ["Expected tuple collection to have length of two. Instead,"; "it had length of " ++ str_int n]
    | SameController =>
        shown ["Original and new controller were the same. This"; "is not allowed."; "";
               "This is likely to occur if you did not properly account"; "for the immutable nature of the controller when programming";
               "your layer. Did you use code that explictly reassigns variables"; "like this?"; "";
               "controller = controller.cache_state(...your update)"; "controller = controller.iterate_act(...your halting probabilities)"; "";
               "Rather than:"; ""; "controller.cache_state(...your update)"; "controller.iterate_act(...your halting probabilities)"; ""]
    | NeverCommitted =>
        shown ["All accumulators were filled, but you never committed the "; "updates. You must commit your updates using iterate_act. Also";
               "make sure you are explicitly reassigning your variables, like follows:"; "";
               "controller = controller.iterate_act(halting_probabilities) "; ""; "rather than:"; ""; "controller.iterate_act(halting_probabilities)"]
    | Incomplete =>
        shown ["Controller had uncommitted updates and is not ready to commit. Make sure";
               "you use controller.cache_update to cache an update for every accumulator you defined.";
               "Also, make sure you use the immutable syntax where you explictly reassign variables:"; "";
               "controller = controller.cache_update(...your update)"; ""; "Rather than:"; ""; "controller.cache_update(...your_update)"]
    end%string.
  Definition making : string := "An issue occurred while trying to make an act controller using the user layer".
  Definition iterating : string := "An issue occurred while validating the execution of run_iteration".
  Definition breach_message (where_ : string) (x : breach) : string := lines (where_ :: breach_explanation x).
  (** Names of classes fit on a line. *)
  Definition plain_classes : Prop := one_line str_controller = true /\ forall t, one_line (str_class t) = true.
End Contract.

(** ** Pytrees *)
Section Trees.
  Context (str_named : string -> string) (str_treedef : treedef -> string).

  Inductive mismatch :=
  | BranchOverTensor
  | ClassDiffers (n m : node)
  | CountDiffers (n m : nat)
  | KeyDiffers (k k' : string)
  | InChild (i : nat) (src tgt : treedef).

  Definition same_class (n m : node) : Prop :=
    match n, m with NNone, NNone | NTuple, NTuple | NList, NList | NDict _, NDict _ => True | NNamed a, NNamed b => a = b | _, _ => False end.
  Definition keys (n : node) : list string := match n with NDict ks => ks | _ => [] end.
  (** The first thing that keeps a source from being spread over a target. A container without contents counts as a tensor
      in the target ([has_contents]). *)
  Definition has_contents {L} (t : tree L) : Prop := exists n c cs, t = Node n (c :: cs).
  Definition first_mismatch {L M} (source : tree L) (target : tree M) (x : mismatch) : Prop :=
    has_contents source /\
    match x with
    | BranchOverTensor => ~ has_contents target
    | ClassDiffers n m => exists cs ds, source = Node n cs /\ target = Node m ds /\ ds <> [] /\ ~ same_class n m
    | CountDiffers a b => exists n m cs ds, source = Node n cs /\ target = Node m ds /\ ds <> [] /\ same_class n m /\ a = length cs /\ b = length ds /\ a <> b
    | KeyDiffers k k' => exists n m cs ds before r r', source = Node n cs /\ target = Node m ds /\ same_class n m /\ length cs = length ds /\
        keys n = before ++ k :: r /\ keys m = before ++ k' :: r' /\ k <> k'
    | InChild i a b => a = structure source /\ b = structure target /\ exists n cs ds s t, source = Node n cs /\ target = Node n ds /\ length cs = length ds /\
        nth_error cs i = Some s /\ nth_error ds i = Some t /\ clash s t /\
        forall j s' t', j < i -> nth_error cs j = Some s' -> nth_error ds j = Some t' -> ~ clash s' t'
    end.
  Definition class_text (n : node) : string :=
    match n with
    | NNone => "<class 'NoneType'>" | NTuple => "<class 'tuple'>" | NList => "<class 'list'>" | NDict _ => "<class 'dict'>" | NNamed c => str_named c
    end.
  Definition mismatch_explanation (x : mismatch) : list string :=
    let head := ["Two trees could not be broadcast together due to mismatched "; "tree shape. "; ""] in
    match x with
    | BranchOverTensor =>
        shown ["Source tree was not broadcastable."; ""; "Source tree had pytree branch node, at position target";
               "tree had tensor node. This is not allowed."; ""; "Did you swap the order you gave your parameters?"]
    | ClassDiffers n m =>
        shown (head ++ ["The source tree had a node of type " ++ class_text n ++ ".";
               "However, the target tree had a node of type " ++ class_text m ++ " in the "; "same place."; "";
               "This is not allowed. Make sure nodes either are the same class,"; "or one is a tensor and the other a pytree."])
    | CountDiffers n m =>
        shown (head ++ ["The source tree had " ++ str_int n ++ " children attached to the "; "current node. However, at the same place at the target";
               "tree, there were " ++ str_int m ++ " children."; ""; "This mismatch is not allowed. Make sure nodes either have";
               "the same number of children, or one is a tensor and the other"; "a pytree."])
    | KeyDiffers k k' =>
        shown (head ++ ["A key holding a child on the source node, named '" ++ k ++ "',"; "was not also found in the same position on target node, instead found";
               "'" ++ k' ++ "'"; ""; "Dictionaries and other ordered objects must be in the same order for both";
               "trees. Did you define two dictionaries with the keys in differing orders?"])
    | InChild i a b =>
        [""; "    Issue occurred between trees on child " ++ str_int i ++ " of the following"; "    pytrees."; "";
         "    On source pytree: "; "    {" ++ str_treedef a ++ "} "; ""; "    On target pytree: "; "    {" ++ str_treedef b ++ "}"]
    end%string.
  Definition mismatch_message (x : mismatch) : string :=
    lines ("An issue occurred while trying to broadcast two pytrees together: " :: mismatch_explanation x).
  Definition plain_keys (n : node) : Prop := Forall (fun k => one_line k = true) (keys n).
  Definition plain_names : Prop := (forall c, one_line (str_named c) = true) /\ (forall t, one_line (str_treedef t) = true).
End Trees.

(** ** Operators *)
Section Operators.
  Context {N : numsys}.
  (** The operator succeeds on two tensors, one of them lined up on the left with the other. *)
  Definition operates (op : array N -> array N -> res (array N)) (x y : array N) : Prop :=
    let n := Nat.max (length (a_shape x)) (length (a_shape y)) in exists z, op (aligned x n) (aligned y n) = Ok z.
  (** [i] is the number of the first leaf on which it does not. *)
  Definition first_failure (op : array N -> array N -> res (array N)) (a b : tree (array N)) (i : nat) : Prop :=
    (exists x y, nth_error (leaves a) i = Some x /\ nth_error (leaves b) i = Some y /\ ~ operates op x y) /\
    forall j x y, j < i -> nth_error (leaves a) j = Some x -> nth_error (leaves b) j = Some y -> operates op x y.
  Definition operands_message (context : string) : string :=
    lines (context :: shown ["An issue occurred while setting up the pytrees composing"; "the two operands to be compatible."]).
  Definition operator_message (context : string) (i : nat) : string :=
    lines (context :: shown ["An issue occurred while trying to execute the operator. It failed";
                             "while attempting to execute the operators on leafs '" ++ str_int i ++ "'"])%string.
  (** A line that starts with something to read. *)
  Definition plain_context (context : string) : Prop :=
    one_line context = true /\ match context with EmptyString => False | String c _ => c <> " "%char /\ c <> "009"%char end.
End Operators.

(** Two mismatches that a reader cannot tell apart by their texts: classes, keys and structures are known by what is printed. *)
Definition reads_same (str_named : string -> string) (str_treedef : treedef -> string) (x y : mismatch) : Prop :=
  match x, y with
  | BranchOverTensor, BranchOverTensor => True
  | ClassDiffers n m, ClassDiffers n' m' => class_text str_named n = class_text str_named n' /\ class_text str_named m = class_text str_named m'
  | CountDiffers a b, CountDiffers a' b' => a = a' /\ b = b'
  | KeyDiffers k l, KeyDiffers k' l' => k = k' /\ l = l'
  | InChild i a b, InChild i' a' b' => i = i' /\ str_treedef a = str_treedef a' /\ str_treedef b = str_treedef b'
  | _, _ => False
  end.
Definition plain_mismatch (x : mismatch) : Prop := match x with KeyDiffers k l => one_line k = true /\ one_line l = true | _ => True end.
