(** * Vocabulary for core/states.py: equality of states up to dictionary order (no model code). *)
From Verif Require Import Base PyTree Tensor Num States.

Section StateSpec.
  Context {N : numsys}.
  Notation st := (state N).

  (** Python's [==] on the fields: dictionaries are equal when they map the same names to the same
      values, whatever their insertion order. *)
  Record same_state (s s' : st) : Prop := {
    ss_eps : epsilon s = epsilon s';
    ss_i : iterations s = iterations s';
    ss_r : residuals s = residuals s';
    ss_p : probabilities s = probabilities s';
    ss_def : forall k, dget k (defaults s) = dget k (defaults s');
    ss_acc : forall k, dget k (accumulators s) = dget k (accumulators s');
    ss_upd : forall k, dget k (updates s) = dget k (updates s');
    ss_dep : depression_constant s = depression_constant s';
    ss_mode : error_mode s = error_mode s'
  }.

  (** The three dictionaries are dictionaries: no key twice. *)
  Definition proper (s : st) : Prop :=
    NoDup (dkeys (defaults s)) /\ NoDup (dkeys (accumulators s)) /\ NoDup (dkeys (updates s)).

  (** The same state with its dictionaries in key order. *)
  Definition canonical (s : st) : st :=
    mkState (epsilon s) (iterations s) (residuals s) (probabilities s) (sort_items (defaults s))
      (sort_items (accumulators s)) (sort_items (updates s)) (depression_constant s) (error_mode s).
End StateSpec.
