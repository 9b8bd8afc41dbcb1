(** * Specification vocabulary for C100: the builder calls about one accumulator, and what the calls of a sequence raise. *)
From Verif Require Import Base PyTree Tensor Num States Builder BuilderSpec.

Section OrderSpec.
  Context {N : numsys}.
  Notation st := (state N).
  (** the name a builder call is given *)
  Definition bname (c : bcall N) : string :=
    match c with BDirect name _ => name | BShape name _ _ _ => name | BDelete name => name end.
  (** the calls about accumulator [k], in order *)
  Definition about (k : string) (cs : list (bcall N)) : list (bcall N) := filter (fun c => String.eqb (bname c) k) cs.
  (** each call of the sequence with the exception it raises; a call that raises has no effect *)
  Fixpoint reports (s : st) (cs : list (bcall N)) : list (bcall N * option exn) :=
    match cs with
    | [] => []
    | c :: cs' => (c, match apply_bcall s c with Ok _ => None | Err e => Some e end) :: reports (bafter s c) cs'
    end.
  Definition reports_about (k : string) (rs : list (bcall N * option exn)) : list (bcall N * option exn) :=
    filter (fun r => String.eqb (bname (fst r)) k) rs.
End OrderSpec.
