(** * Specification vocabulary for C104: when a definition is in force. *)
From Verif Require Import Base PyTree Tensor Num States Builder BuilderSpec OrderSpec Warnings.

Section WarnSpec.
  Context {N : numsys}.
  Notation st := (state N).
  Definition by_shape (c : bcall N) : Prop := exists name sh d fill, c = BShape name sh d fill.
  Definition is_definition (c : bcall N) : Prop := forall name, c <> BDelete name.
  (** [in_force s cs k]: among the calls [cs], made on the builder [s] one after another, an accepted one defined [k], and no
      accepted one deleted it later. *)
  Definition in_force (s : st) (cs : list (bcall N)) (k : string) : Prop :=
    exists cs1 d cs2, cs = cs1 ++ d :: cs2 /\ bname d = k /\ is_definition d /\ is_ok (apply_bcall (brun s cs1) d) = true /\
      forall cs3 cs4, cs2 = cs3 ++ BDelete k :: cs4 -> is_ok (apply_bcall (brun s (cs1 ++ d :: cs3)) (BDelete k)) = false.
  (** the warnings a call shows *)
  Definition shown (f : wfilter) (s : st) (c : bcall N) : list string := fst (apply_wcall f s c).
  (** a call replaces a definition by another *)
  Definition overwrites (f : wfilter) (s : st) (c : bcall N) : Prop :=
    exists t t' s', dget (bname c) (defaults s) = Some t /\ snd (apply_wcall f s c) = WReturned s' /\ dget (bname c) (defaults s') = Some t' /\ t <> t'.
End WarnSpec.
