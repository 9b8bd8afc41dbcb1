(** * Vocabulary: controllers and calls with the accumulators renamed *)
From Verif Require Import Base PyTree Tensor Num States Controller Builder Viewer Editor Heap HeapSpec.

Section RenameSpec.
  Context {N : numsys} (new_name : string -> string).
  Notation st := (state N).

  (** Different names stay different. *)
  Definition one_to_one : Prop := forall k k', new_name k = new_name k' -> k = k'.

  Definition rename_dict {V} (d : dict V) : dict V := map (fun kv => (new_name (fst kv), snd kv)) d.
  (** The same controller with its accumulators renamed; names inside of pytrees are not touched. *)
  Definition rename (s : st) : st :=
    mkState (epsilon s) (iterations s) (residuals s) (probabilities s)
      (rename_dict (defaults s)) (rename_dict (accumulators s)) (rename_dict (updates s))
      (depression_constant s) (error_mode s).
  Definition rename_object (v : pyval N) : pyval N :=
    match v with
    | PController s => PController (rename s)
    | PBuilder s => PBuilder (rename s)
    | PViewer s => PViewer (rename s)
    | PEditor e => PEditor (mkEd (rename (ed_state e)) (ed_mode e))
    | PState s => PState (rename s)
    end.
  Definition rename_method (m : method N) : method N :=
    match m with
    | MCache name item => MCache (new_name name) item
    | MDefine name t => MDefine (new_name name) t
    | MDefineByShape name sh d x => MDefineByShape (new_name name) sh d x
    | MDelete name => MDelete (new_name name)
    | MSetAccumulator name t => MSetAccumulator (new_name name) t
    | MSetDefaults name t => MSetDefaults (new_name name) t
    | MSetUpdates name t => MSetUpdates (new_name name) t
    | _ => m
    end.
  Definition rename_hcall (c : hcall N) : hcall N :=
    match c with On i m => On i (rename_method m) | NewBuilder em b d eps dep => NewBuilder em b d eps dep end.
  (** No flattening and rebuilding, which sorts dictionaries by name. *)
  Definition no_round_trip (c : hcall N) : Prop := forall i, c <> On i MRoundTrip.
End RenameSpec.
