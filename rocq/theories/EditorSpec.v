(** * Vocabulary for the properties of core/tensoreditor.py: editing sessions (no model code). *)
From Coq Require Import QArith Qcanon.
From Verif Require Import Base PyTree Tensor Num States Controller Editor Wf History ElementSpec UtilsSpec.

Close Scope Qc_scope. Close Scope Q_scope. Open Scope nat_scope.

Section EditorSpec.
  Context {N : numsys}.
  Notation st := (state N).
  Notation tr := (tree (array N)).

  (** One setter call. *)
  Inductive edit :=
  | EProbabilities (v : array N)
  | EResiduals (v : array N)
  | EIterations (v : array N)
  | EEpsilon (x : scl N)
  | EAccumulator (name : string) (v : tr)
  | EDefaults (name : string) (v : tr)
  | EUpdates (name : string) (v : tr).
  Definition apply_edit (e : editor N) (c : edit) : res (editor N) :=
    match c with
    | EProbabilities v => set_probabilities e v
    | EResiduals v => set_residuals e v
    | EIterations v => set_iterations e v
    | EEpsilon x => set_epsilon e x
    | EAccumulator name v => set_accumulator e name v
    | EDefaults name v => set_defaults e name v
    | EUpdates name v => set_updates e name v
    end.

  (** What a user does with a controller: call it, or open an editor on it in mode [mode], call
      one setter and build. An action that raises leaves the user with what they had. *)
  Inductive action :=
  | Call (c : call N)
  | Edit (c : edit).
  Definition apply_action (mode : string) (s : st) (a : action) : res st :=
    match a with
    | Call c => apply_call s c
    | Edit c => e <- edit_controller s mode ;; e' <- apply_edit e c ;; Ok (editor_build e')
    end.
  Definition act_on (mode : string) (s : st) (a : action) : st :=
    match apply_action mode s a with Ok s' => s' | Err _ => s end.
  Definition session (mode : string) (s : st) (acts : list action) : st :=
    fold_left (act_on mode) acts s.

  (** Values made of genuine arrays. *)
  Definition edit_wf (c : edit) : Prop :=
    match c with
    | EProbabilities v | EResiduals v | EIterations v => awf v
    | EEpsilon _ => True
    | EAccumulator _ v | EDefaults _ v | EUpdates _ v => Forall awf (leaves v)
    end.
  Definition action_wf (a : action) : Prop :=
    match a with Call c => call_wf c | Edit c => edit_wf c end.

  (** [v] does not put a [None] where [t] has a tensor, nor the other way round, in an otherwise
      equal tree. *)
  Definition none_safe (t v : tr) : Prop := same_up_to_none t v -> structure t = structure v.
  Definition edit_none_safe (s : st) (c : edit) : Prop :=
    match c with
    | EAccumulator name v | EDefaults name v =>
        forall t, dget name (accumulators s) = Some t -> none_safe t v
    | _ => True
    end.
  Definition action_none_safe (s : st) (a : action) : Prop :=
    match a with Call _ => True | Edit c => edit_none_safe s c end.

  (** Leaf by leaf the same shapes and dtypes, as far as both trees have leaves. *)
  Definition zipped_alike (t v : tr) : Prop :=
    forall i a b, nth_error (leaves t) i = Some a -> nth_error (leaves v) i = Some b -> sig a = sig b.

  (** Neither below zero nor above one, by the comparisons of the arithmetic. *)
  Definition in_unit (x : val N) : Prop := v_ltb N x (v_zero N) = false /\ v_ltb N (v_one N) x = false.

  (** The same tensors in kind: shapes, dtypes, names and tree structures. *)
  Record same_kind (s s' : st) : Prop := {
    sk_p : sig (probabilities s') = sig (probabilities s);
    sk_r : sig (residuals s') = sig (residuals s);
    sk_i : sig (iterations s') = sig (iterations s);
    sk_dep : depression_constant s' = depression_constant s;
    sk_mode : error_mode s' = error_mode s;
    sk_keys : dkeys (accumulators s') = dkeys (accumulators s);
    sk_keys_d : dkeys (defaults s') = dkeys (defaults s);
    sk_keys_u : dkeys (updates s') = dkeys (updates s);
    sk_acc : forall k t t', dget k (accumulators s) = Some t -> dget k (accumulators s') = Some t' ->
               alike t' t;
    sk_def : forall k t t', dget k (defaults s) = Some t -> dget k (defaults s') = Some t' ->
               alike t' t
  }.
End EditorSpec.
Arguments edit N : clear implicits.
Arguments action N : clear implicits.

(** Exact arithmetic: epsilon, probabilities and residuals lie in [0,1], the iteration counts and
    the depression constant are not negative. *)
Record in_range (s : state QcNum) : Prop := {
  ir_eps : (0 <= epsilon s /\ epsilon s <= 1)%Qc;
  ir_dep : (0 <= depression_constant s)%Qc;
  ir_p : forall i p, nth_error (a_data (probabilities s)) i = Some p -> (0 <= p /\ p <= 1)%Qc;
  ir_r : forall i r, nth_error (a_data (residuals s)) i = Some r -> (0 <= r /\ r <= 1)%Qc;
  ir_i : forall i n, nth_error (a_data (iterations s)) i = Some n -> (0 <= n)%Qc
}.
