(** * Everything a user can get hold of: what is asked of the arguments, what is consistent
    (vocabulary only, no model code) *)
From Coq Require Import QArith Qcanon.
From Verif Require Import Base PyTree Tensor Num States Controller Builder Viewer Editor Wf History
  BuilderSpec HeapSpec EditorSpec.
Close Scope Qc_scope. Close Scope Q_scope. Open Scope nat_scope.

Section PoolSpec.
  Context {N : numsys}.

  (** The ACT state inside an object. *)
  Definition inside (v : pyval N) : state N :=
    match v with
    | PController s | PBuilder s | PViewer s | PState s => s
    | PEditor e => ed_state e
    end.

  (** The tree structures the user has in mind for the accumulators of each name. *)
  Definition plan := string -> treedef -> Prop.
  Definition no_nones : plan := fun _ structure => no_none structure = true.

  (** What the user must see to: arrays are arrays (as many numbers as the shape says), functions
      handed to [transform] keep shapes and dtypes, editors are not silenced; accumulators are
      defined as planned, and a value set with an editor does not only put a [None] where the plan
      has a tensor or the other way round (C34). Anything else may be wrong: names, structures,
      shapes, dtypes, numbers, the order of the calls. *)
  Definition made_of_arrays (t : tree (array N)) : Prop := Forall awf (leaves t).
  Definition keeps_kind (f : array N -> res (array N)) : Prop :=
    forall a a', f a = Ok a' -> awf a -> awf a' /\ sig a' = sig a.
  Definition method_ok (planned : plan) (m : method N) : Prop :=
    match m with
    | MCache _ t | MSetUpdates _ t => made_of_arrays t
    | MDefine name t => made_of_arrays t /\ planned name (structure t)
    | MDefineByShape name shapes d x =>
        forall t : tree (array N), describes d (v_of_scl N x) shapes t -> planned name (structure t)
    | MSetAccumulator name v | MSetDefaults name v =>
        made_of_arrays v /\
        forall t : tree (array N), planned name (structure t) -> none_safe t v
    | MIter a | MSetProbabilities a | MSetResiduals a | MSetIterations a => awf a
    | MTransform f => keeps_kind f
    | MMask _ mk => twf mk
    | MEditController mode | MEditSave mode => mode <> m_silence
    | _ => True
    end.
  Definition hcall_ok (planned : plan) (c : hcall N) : Prop :=
    match c with On _ m => method_ok planned m | NewBuilder _ _ _ _ _ => True end.

  (** The state inside is well-formed (Wf.v: shapes, dtypes and names of all tensors fit), pending
      updates are arrays, accumulators have planned structures; a builder holds a fresh state, an
      editor checks what it is given. *)
  Definition consistent (planned : plan) (v : pyval N) : Prop :=
    wf (inside v) /\ wf_pending (inside v) /\
    (forall name t, dget name (accumulators (inside v)) = Some t -> planned name (structure t)) /\
    match v with
    | PBuilder s => fresh s
    | PEditor e => ed_mode e = m_standard
    | _ => True
    end.

  (** Receivers and methods for which there is nothing that could be wrong. *)
  Definition cannot_fail (m : method N) (v : pyval N) : Prop :=
    match m, v with
    | (MMakeViewer | MSave), PController _
    | (MSave | MHalted | MUnhalted), PViewer _
    | (MSave | MBuild), PEditor _
    | (MLoadController | MLoadViewer), PState _
    | MBuild, PBuilder _
    | MRoundTrip, (PController _ | PViewer _ | PBuilder _ | PEditor _) => True
    | MEditController mode, PController _ | MEditSave mode, PState _ => mode = m_standard
    | _, _ => False
    end.
End PoolSpec.

(** Exact arithmetic: additionally, the depression constant given to a builder is not negative, and
    functions handed to [transform] keep numbers from 0 to 1 between 0 and 1 and make no number
    negative. *)
Definition keeps_range (f : array QcNum -> res (array QcNum)) : Prop :=
  forall a a', f a = Ok a' ->
    (Forall (fun x => 0 <= x /\ x <= 1)%Qc (a_data a) -> Forall (fun x => 0 <= x /\ x <= 1)%Qc (a_data a')) /\
    (Forall (fun x => 0 <= x)%Qc (a_data a) -> Forall (fun x => 0 <= x)%Qc (a_data a')).
Definition hcall_ranged (c : hcall QcNum) : Prop :=
  match c with
  | On _ (MTransform f) => keeps_range f
  | On _ _ => True
  | NewBuilder _ _ _ _ dep => (0 <= dep)%Qc
  end.
