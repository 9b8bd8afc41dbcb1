(** * The warning of core/builder.py

    [warnings.warn(text)] either shows (or drops) the text and returns, or, when Python's warning filter says "error"
    ([-W error], [warnings.simplefilter("error")], pytest's [filterwarnings = error]), raises the warning as an exception.
    Simplification: Python's default filter shows a text once per line of code; here every call of [warnings.warn] counts. *)
From Verif Require Import Base PyTree Tensor Num Utils States Controller Builder BuilderSpec.

Inductive wfilter := WShow | WError.
(** what a call does: it returns, raises one of the exceptions of the code, or raises the warning *)
Inductive wresult (A : Type) := WReturned (a : A) | WRaised (e : exn) | WRaisedWarning.
Arguments WReturned {A}. Arguments WRaised {A}. Arguments WRaisedWarning {A}.
Definition of_res {A} (r : res A) : wresult A := match r with Ok a => WReturned a | Err e => WRaised e end.

(** builder.py:356, the text *)
Definition overwrite_text : string := "Accumulator and defaults are being overwritten".

Section Warnings.
  Context {N : numsys}.
  Notation st := (state N).
  (** builder.py:314-407 [define_accumulator_by_shape], lines 355-356 included: the warnings shown, and what the call does. *)
  Definition define_by_shape_w (f : wfilter) (s : st) (name : string) (shapes : tree sleaf) (d : dtype) (fill : scl N) : list string * wresult st :=
    let rest := of_res (define_by_shape s name shapes d fill) in
    if dmem name (defaults s) then
      match f with WShow => ([overwrite_text], rest) | WError => ([], WRaisedWarning) end
    else ([], rest).
  (** builder.py:277-312 and 255-275 never warn. *)
  Definition apply_wcall (f : wfilter) (s : st) (c : bcall N) : list string * wresult st :=
    match c with
    | BDirect name t => ([], of_res (define_directly s name t))
    | BShape name sh d fill => define_by_shape_w f s name sh d fill
    | BDelete name => ([], of_res (delete_definition s name))
    end.
  (** a call that raises leaves the builder at hand as it is *)
  Definition wafter (f : wfilter) (s : st) (c : bcall N) : st := match snd (apply_wcall f s c) with WReturned s' => s' | _ => s end.
  Definition wrun (f : wfilter) (s : st) (cs : list (bcall N)) : st := fold_left (wafter f) cs s.
End Warnings.
