(** * Vocabulary: what can be wrong with an argument, and how the error says so. Nothing here models repository code;
    the sentences are those of the repository. *)
From Coq Require Import Ascii.
From Verif Require Import Base PyTree Tensor Num States Wf UtilsSpec EditorSpec PyStr Messages Editor Builder.
Open Scope string_scope. Open Scope list_scope.

(** Text without a newline. *)
Fixpoint one_line (s : string) : bool :=
  match s with EmptyString => true | String c s' => negb (Ascii.eqb c "010"%char) && one_line s' end.
Definition lines (ls : list string) : string := String.concat (String "010"%char EmptyString) ls.
(** Lines shown below a heading: between empty lines, moved right by four; empty lines stay empty. *)
Definition shown (ls : list string) : list string :=
  "" :: map (fun l => match l with EmptyString => l | _ => ("    " ++ l)%string end) ls ++ [""].

Section MessagesSpec.
  Context {N : numsys} (str_scl : scl N -> string).
  Notation st := (state N).
  Notation tr := (tree (array N)).

  (** ** Editors *)

  (** A setter call, with the texts of its error. *)
  Definition edit_aloud (e : editor N) (c : edit N) : outcome (editor N) :=
    match c with
    | EProbabilities v => m_set_probabilities e v
    | EResiduals v => m_set_residuals e v
    | EIterations v => m_set_iterations e v
    | EEpsilon x => m_set_epsilon str_scl e x
    | EAccumulator name v => m_set_accumulator e name v
    | EDefaults name v => m_set_defaults e name v
    | EUpdates name v => m_set_updates e name v
    end.

  Inductive complaint :=
  | ShapeDiffers (old new : list nat)
  | DtypeDiffers (old new : dtype)
  | SomeBelowZero | SomeAboveOne | SomeNotWhole
  | EpsilonLow | EpsilonHigh
  | NotDefined
  | StructureDiffers
  | LeafShape (i : nat) (old new : list nat)
  | LeafDtype (i : nat) (old new : dtype).

  Definition tensor_complaint (old new : array N) (x : complaint) : Prop :=
    match x with
    | ShapeDiffers a b => a = a_shape old /\ b = a_shape new /\ a <> b
    | DtypeDiffers a b => a = a_dt old /\ b = a_dt new /\ a <> b
    | _ => False
    end.
  Definition range_complaint (new : array N) (x : complaint) : Prop :=
    match x with
    | SomeBelowZero => exists v, In v (a_data new) /\ v_ltb N v (v_zero N) = true
    | SomeAboveOne => exists v, In v (a_data new) /\ v_ltb N (v_one N) v = true
    | _ => False
    end.
  Definition tree_complaint (old new : tr) (x : complaint) : Prop :=
    match x with
    | StructureDiffers => ~ same_up_to_none old new
    | LeafShape i a b => exists o n, nth_error (leaves old) i = Some o /\ nth_error (leaves new) i = Some n /\ a = a_shape o /\ b = a_shape n /\ a <> b
    | LeafDtype i a b => exists o n, nth_error (leaves old) i = Some o /\ nth_error (leaves new) i = Some n /\ a = a_dt o /\ b = a_dt n /\ a <> b
    | _ => False
    end.
  (** The complaint is true of this call on an editor of the state [s]. *)
  Definition justified (s : st) (c : edit N) (x : complaint) : Prop :=
    match c with
    | EProbabilities v => tensor_complaint (probabilities s) v x \/ range_complaint v x
    | EResiduals v => tensor_complaint (residuals s) v x \/ range_complaint v x
    | EIterations v => tensor_complaint (iterations s) v x \/ (x = SomeNotWhole /\ exists n, In n (a_data v) /\ v_leb N (v_zero N) n = false)
    | EEpsilon eps => (x = EpsilonLow /\ s_leb N (s_zero N) eps = false) \/ (x = EpsilonHigh /\ s_leb N eps (s_one N) = false)
    | EAccumulator name v | EDefaults name v =>
        (x = NotDefined /\ dget name (defaults s) = None) \/ exists t, dget name (accumulators s) = Some t /\ tree_complaint t v x
    | EUpdates name v =>
        (x = NotDefined /\ dget name (defaults s) = None) \/ exists t, dget name (defaults s) = Some t /\ is_none v = false /\ tree_complaint t v x
    end.
  (** The order in which the complaints are considered. *)
  Definition rank (x : complaint) : nat :=
    match x with
    | ShapeDiffers _ _ | EpsilonLow | NotDefined => 0
    | DtypeDiffers _ _ | EpsilonHigh | StructureDiffers => 1
    | SomeBelowZero | SomeNotWhole => 2
    | SomeAboveOne => 3
    | LeafShape i _ _ => 2 + 2 * i
    | LeafDtype i _ _ => 3 + 2 * i
    end.
  Definition first_complaint (s : st) (c : edit N) (x : complaint) : Prop :=
    justified s c x /\ forall y, justified s c y -> rank x <= rank y.

  (** A tree as update of an accumulator that does not exist. *)
  Definition stray_update (s : st) (c : edit N) : Prop :=
    match c with EUpdates name v => dget name (defaults s) = None /\ is_none v = false | _ => False end.

  Definition name_of (c : edit N) : string := match c with EAccumulator n _ | EDefaults n _ | EUpdates n _ => n | _ => "" end.
  Definition number_of (c : edit N) : string := match c with EEpsilon eps => str_scl eps | _ => "" end.
  Definition heading (c : edit N) : string :=
    match c with
    | EProbabilities _ => "An issue occurred while attempting to set probabilities with an Editor: "
    | EResiduals _ => "An issue occurred while attempting to set residuals with an Editor: "
    | EIterations _ => "An error occurred while attempting to set the iterations tensor using an Editor"
    | EEpsilon _ => "An error occurred while setting to an epsilon using an Editor"
    | EAccumulator _ _ => "An error occurred while setting to an accumulator with an Editor:"
    | EDefaults name _ => "An error occurred while setting to a defaults  named '" ++ name ++ "' with an Editor:"
    | EUpdates name _ => "An error occurred while setting to an update entry named '" ++ name ++ "' with an Editor"
    end%string.
  Definition explanation (c : edit N) (x : complaint) : list string :=
    match x with
    | ShapeDiffers a b =>
        shown ["The original tensor had shape " ++ str_shape a ++ "."; "The proposed new tensor has shape " ++ str_shape b ++ ". These did not match."]
    | DtypeDiffers a b =>
        shown ["Originally, the tensor had dtype " ++ str_dtype a ++ "."; "However, the proposed replacement has dtype " ++ str_dtype b]
    | SomeBelowZero => shown ["A tensor representing probabilities had elements less than zero"]
    | SomeAboveOne => shown ["A tensor representing probabilities had elements greater than one"]
    | SomeNotWhole => shown ["The tensor being processed did not consist of whole"; "numbers. That is, numbers >= 0. This is not allowed"]
    | EpsilonLow => ["    Epsilon was too low. Probabilities should be greater than or equal to zero, got " ++ number_of c]
    | EpsilonHigh => ["    Epsilon was too high. Probabilities should be greater than or equal to zero, got " ++ number_of c]
    | NotDefined =>
        shown ["Accumulator of name '" ++ name_of c ++ "' was never setup using a define statement"; "in the builder. This means you cannot set to it."]
    | StructureDiffers =>
        shown ["The original tensor collection or tensor does not have the "; "same tree structure as the new tensor collection or tensor."]
    | LeafShape i a b =>
        shown ["An issue occurred in leaf " ++ str_int i; ""; "The original shape was " ++ str_shape a ++ "."; "However, the update has shape " ++ str_shape b; "";
               "These do not match."]
    | LeafDtype i a b =>
        shown ["An issue occurred in leaf " ++ str_int i; ""; "The original dtype was " ++ str_dtype a ++ "."; "However, the new leaf had dtype " ++ str_dtype b; "";
               "These differences are not allowed."]
    end%string.
  Definition message (c : edit N) (x : complaint) : string := lines (heading c :: explanation c x).
  (** The names and numbers in the message fit on a line. *)
  Definition printable (c : edit N) : Prop := one_line (name_of c) = true /\ one_line (number_of c) = true.
  Definition same_setter (c c' : edit N) : Prop :=
    match c, c' with
    | EProbabilities _, EProbabilities _ | EResiduals _, EResiduals _ | EIterations _, EIterations _ | EEpsilon _, EEpsilon _
    | EAccumulator _ _, EAccumulator _ _ | EDefaults _ _, EDefaults _ _ | EUpdates _ _, EUpdates _ _ => True
    | _, _ => False
    end.

  (** ** Definitions *)
  Inductive leaf_complaint :=
  | NotFloating (i : nat) (d : dtype)
  | TooFewDimensions (i need got : nat)
  | WrongBatch (i : nat) (batch got : list nat).
  Definition leaf_justified (s : st) (t : tr) (x : leaf_complaint) : Prop :=
    match x with
    | NotFloating i d => exists a, nth_error (leaves t) i = Some a /\ d = a_dt a /\ (d = DBool \/ d = DInt32)
    | TooFewDimensions i need got =>
        exists a, nth_error (leaves t) i = Some a /\ need = length (batch_shape s) /\ got = length (a_shape a) /\ got < need
    | WrongBatch i b got =>
        exists a, nth_error (leaves t) i = Some a /\ b = batch_shape s /\ got = firstn (length b) (a_shape a) /\ got <> b
    end.
  Definition leaf_rank (x : leaf_complaint) : nat :=
    match x with NotFloating i _ => 3 * i | TooFewDimensions i _ _ => 1 + 3 * i | WrongBatch i _ _ => 2 + 3 * i end.
  Definition leaf_exception (x : leaf_complaint) : exn := match x with NotFloating _ _ => TypeError | _ => ValueError end.
  Definition leaf_explanation (x : leaf_complaint) : list string :=
    match x with
    | NotFloating i d =>
        shown ["A dtype issue occurred. It was expected that the dtype would be floating for";
               "all entries. However, leaf " ++ str_int i ++ " was in fact of dtype " ++ str_dtype d]
    | TooFewDimensions i need got =>
        shown ["A dimensions issue occurred. It was expected any defined tensors";
               "will have a number of dimensions at least of number " ++ str_int need ++ ". ";
               "This is because that is the number of batch dimensions."; "";
               "However, leaf '" ++ str_int i ++ "' actually had a number of dimensions equal to " ++ str_int got]
    | WrongBatch i b got =>
        shown ["A shape issue occurred. It was expected that the provided";
               "pytree would have had batch shape " ++ str_shape b ++ ". However,"; "leaf '" ++ str_int i ++ "' had shape " ++ str_shape got]
    end%string.
  Definition first_leaf_complaint (s : st) (t : tr) (x : leaf_complaint) : Prop :=
    leaf_justified s t x /\ forall y, leaf_justified s t y -> leaf_rank x <= leaf_rank y.

  (** ** Iterations *)
  Definition blame (k : string) : string := ("An error occurred regarding accumulator named '" ++ k ++ "': " ++ lines [""; ""; ""])%string.

  (** The accumulator [k] has a pending update that can be added to it. *)
  Definition can_commit (s : st) (k : string) : Prop :=
    exists t u, dget k (accumulators s) = Some t /\ dget k (updates s) = Some u /\ is_none u = false /\
      Forall2 (can_add (a_dt (probabilities s))) (leaves t) (leaves u).
End MessagesSpec.
