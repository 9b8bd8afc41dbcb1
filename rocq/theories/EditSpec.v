(** * Vocabulary for sequences of edits: what an edit is about, restoring a saved state
    (no model code) *)
From Verif Require Import Base PyTree Tensor Num States Editor Wf EditorSpec.

Section EditSpec.
  Context {N : numsys}.
  Notation st := (state N).
  Notation tr := (tree (array N)).

  (** What a setter call is about. *)
  Inductive target :=
  | TProbabilities | TResiduals | TIterations | TEpsilon
  | TAccumulator (name : string) | TDefaults (name : string) | TUpdates (name : string).
  Definition target_of (c : edit N) : target :=
    match c with
    | EProbabilities _ => TProbabilities
    | EResiduals _ => TResiduals
    | EIterations _ => TIterations
    | EEpsilon _ => TEpsilon
    | EAccumulator name _ => TAccumulator name
    | EDefaults name _ => TDefaults name
    | EUpdates name _ => TUpdates name
    end.
  (** The state has the value the setter was called with. *)
  Definition holds (s : st) (c : edit N) : Prop :=
    match c with
    | EProbabilities v => probabilities s = v
    | EResiduals v => residuals s = v
    | EIterations v => iterations s = v
    | EEpsilon x => epsilon s = x
    | EAccumulator name v => dget name (accumulators s) = Some v
    | EDefaults name v => dget name (defaults s) = Some v
    | EUpdates name v => dget name (updates s) = Some v
    end.
  (** Two states have the same value there. *)
  Definition same_at (t : target) (s s' : st) : Prop :=
    match t with
    | TProbabilities => probabilities s' = probabilities s
    | TResiduals => residuals s' = residuals s
    | TIterations => iterations s' = iterations s
    | TEpsilon => epsilon s' = epsilon s
    | TAccumulator name => dget name (accumulators s') = dget name (accumulators s)
    | TDefaults name => dget name (defaults s') = dget name (defaults s)
    | TUpdates name => dget name (updates s') = dget name (updates s)
    end.

  (** Setters called one after the other. A call that raises leaves the user with the editor they
      had. *)
  Definition after_edit (e : editor N) (c : edit N) : editor N :=
    match apply_edit e c with Ok e' => e' | Err _ => e end.
  Definition editing (e : editor N) (cs : list (edit N)) : editor N := fold_left after_edit cs e.
  (** The call returns; the exception it raises instead. *)
  Definition accepted (e : editor N) (c : edit N) : Prop := exists e', apply_edit e c = Ok e'.
  Definition raised (e : editor N) (c : edit N) : option exn :=
    match apply_edit e c with Ok _ => None | Err x => Some x end.

  (** One call for everything that can be set. *)
  Definition checkpoint (s : st) : list (edit N) :=
    [EProbabilities (probabilities s); EResiduals (residuals s); EIterations (iterations s); EEpsilon (epsilon s)]
    ++ map (fun kv => EAccumulator (fst kv) (snd kv)) (accumulators s)
    ++ map (fun kv => EDefaults (fst kv) (snd kv)) (defaults s)
    ++ map (fun kv => EUpdates (fst kv) (snd kv)) (updates s).
  (** The numbers are in the ranges the setters ask for, by the comparisons of the arithmetic, and
      pending updates look like the accumulators. *)
  Record restorable (s : st) : Prop := {
    rb_p : Forall in_unit (a_data (probabilities s));
    rb_r : Forall in_unit (a_data (residuals s));
    rb_i : Forall (fun x => v_leb N (v_zero N) x = true) (a_data (iterations s));
    rb_e : s_leb N (s_zero N) (epsilon s) = true /\ s_leb N (epsilon s) (s_one N) = true;
    rb_u : forall k u t, dget k (updates s) = Some u -> dget k (defaults s) = Some t ->
             is_none u = true \/ alike u t
  }.
End EditSpec.
