(** * Specification vocabulary for C101: the calls that still matter for one batch element (no model code). *)
From Verif Require Import Base PyTree Tensor Num States Controller Wf History ElementSpec.

Section StreamSpec.
  Context {N : numsys}.
  Notation st := (state N).
  (** The calls of the history [h] that returned, without the resets, since the last reset that found element [i]
      halted. [done] are the calls noted so far. *)
  Fixpoint current (i : nat) (s : st) (done h : list (call N)) : list (call N) :=
    match h with
    | [] => done
    | c :: h' =>
        match apply_call s c with
        | Err _ => current i s done h'
        | Ok s' =>
            current i s'
              (match c with
               | CReset => match nth_error (data (halted_batches s)) i with Some true => [] | _ => done end
               | _ => done ++ [c]
               end) h'
        end
    end.
  (** Python's [None] has no contents (a restriction of the representation of pytrees in the model). *)
  Definition plain_none (c : call N) : Prop :=
    match c with CCache _ item => is_none item = true -> item = tnone | _ => True end.
  (** The inputs of one place of the batch, one after another, with a reset after each. *)
  Definition stream (inputs : list (list (call N))) : list (call N) := concat (map (fun cs => cs ++ [CReset]) inputs).
End StreamSpec.
