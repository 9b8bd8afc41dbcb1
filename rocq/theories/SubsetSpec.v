(** * Part of a controller: some of its accumulators (no model code). *)
From Verif Require Import Base PyTree Tensor Num States Wf History ElementSpec.

Section SubsetSpec.
  Context {N : numsys}.
  Notation st := (state N).
  Notation tr := (tree (array N)).

  (** The entries of a dictionary whose name is in [P]. *)
  Definition keep {V} (P : string -> bool) (d : dict V) : dict V := filter (fun kv => P (fst kv)) d.
  (** The controller without the accumulators outside [P]. *)
  Definition only (P : string -> bool) (s : st) : st :=
    mkState (epsilon s) (iterations s) (residuals s) (probabilities s) (keep P (defaults s))
      (keep P (accumulators s)) (keep P (updates s)) (depression_constant s) (error_mode s).
  (** The calls without the updates of accumulators outside [P]. *)
  Definition concerns (P : string -> bool) (c : call N) : bool :=
    match c with CCache name _ => P name | _ => true end.
  Definition only_calls (P : string -> bool) (cs : list (call N)) : list (call N) := filter (concerns P) cs.

  (** The same calls made one after the other; [None] if one of them raises. *)
  Fixpoint all_return (s : st) (cs : list (call N)) : option st :=
    match cs with
    | [] => Some s
    | c :: cs' => match apply_call s c with Ok s' => all_return s' cs' | Err _ => None end
    end.
  (** the one-element set of names *)
  Definition just (k : string) : string -> bool := String.eqb k.
  Definition nothing : string -> bool := fun _ => false.
End SubsetSpec.
