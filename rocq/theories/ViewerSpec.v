(** * Vocabulary for the viewer properties (no model code). *)
From Coq Require Import QArith Qcanon.
From Verif Require Import Base PyTree Tensor Num States Wf.
Close Scope Qc_scope. Close Scope Q_scope. Open Scope nat_scope.

Section ViewerSpec.
  Context {N : numsys}.
  Notation st := (state N).
  Notation tr := (tree (array N)).

  (** Two pytrees have the same structure and are related leaf by leaf. *)
  Definition tree_rel (P : array N -> array N -> Prop) (t t' : tr) : Prop :=
    structure t' = structure t /\ Forall2 P (leaves t) (leaves t').
  (** Two dictionaries have the same names in the same order and related pytrees. *)
  Definition dict_rel (P : array N -> array N -> Prop) (d d' : dict tr) : Prop :=
    dkeys d' = dkeys d /\
    forall k t t', dget k d = Some t -> dget k d' = Some t' -> tree_rel P t t'.
  (** [s'] shows every tensor of [s] (pending updates aside) through [P]; settings are equal. *)
  Record viewed (P : array N -> array N -> Prop) (s s' : st) : Prop := {
    v_its : P (iterations s) (iterations s');
    v_res : P (residuals s) (residuals s');
    v_prob : P (probabilities s) (probabilities s');
    v_accs : dict_rel P (accumulators s) (accumulators s');
    v_defs : dict_rel P (defaults s) (defaults s');
    v_eps : epsilon s' = epsilon s;
    v_dep : depression_constant s' = depression_constant s;
    v_mode : error_mode s' = error_mode s
  }.

  (** Entry j of a tensor of shape [B ++ R] belongs to batch element [j / size R]. The tensor
      [a'] has the entries of [a] whose batch element is marked and [z] elsewhere. *)
  Definition masked (z : val N) (B : list nat) (m : list bool) (a a' : array N) : Prop :=
    sig a' = sig a /\ length (a_data a') = length (a_data a) /\
    forall R, a_shape a = B ++ R ->
    forall j v, nth_error (a_data a) j = Some v ->
    exists b, nth_error m (j / size R) = Some b /\
      nth_error (a_data a') j = Some (if b then v else z).

  (** The places of a state where a tensor is shown. *)
  Inductive place := PIterations | PResiduals | PProbabilities
    | PAccumulator (name : string) (leaf : nat) | PDefault (name : string) (leaf : nat).
  Definition tensor_at (s : st) (p : place) : option (array N) :=
    match p with
    | PIterations => Some (iterations s)
    | PResiduals => Some (residuals s)
    | PProbabilities => Some (probabilities s)
    | PAccumulator k l =>
        match dget k (accumulators s) with Some t => nth_error (leaves t) l | None => None end
    | PDefault k l =>
        match dget k (defaults s) with Some t => nth_error (leaves t) l | None => None end
    end.

  (** All tensors a state, pending updates aside. *)
  Definition tensors (s : st) : list (array N) :=
    iterations s :: residuals s :: probabilities s ::
    flat_map (fun kv => leaves (snd kv)) (accumulators s) ++
    flat_map (fun kv => leaves (snd kv)) (defaults s).
End ViewerSpec.
