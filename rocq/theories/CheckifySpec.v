(** * Vocabulary: the course of a call with checks *)
From Verif Require Import Base Checkify.

(** [reaches p cs e]: the call comes to the checks [cs] (value and message) and ends by returning or raising [e]. *)
Inductive reaches {A} : program A -> list (bool * string) -> A + exn -> Prop :=
| reaches_return a : reaches (Return a) [] (inl a)
| reaches_raise e : reaches (Raise e) [] (inr e)
| reaches_check ok m rest cs e : reaches rest cs e -> reaches (Check ok m rest) ((ok, m) :: cs) e.
(** [m] is the message of the first check that failed. *)
Definition first_failure (cs : list (bool * string)) (m : string) : Prop :=
  exists before after, cs = before ++ (false, m) :: after /\ Forall (fun c => fst c = true) before.
