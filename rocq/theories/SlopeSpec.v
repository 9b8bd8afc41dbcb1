(** * Vocabulary for statements about small changes of halting probabilities and about mixtures of updates.
    Nothing here models repository code. *)
From Coq Require Import QArith Qcanon.
From Verif Require Import Base PyTree Tensor Num States Controller Wf Spec History TraceSpec.
Open Scope Qc_scope.

Definition close (delta v w : Qc) : Prop := v - delta < w /\ w < v + delta.

(** The same call, except that the halting probability of element [i] is a little different and those of
    the other elements are anything. *)
Definition nudged (i : nat) (delta : Qc) (c c' : call QcNum) : Prop :=
  match c, c' with
  | CCache name item, CCache name' item' => name = name' /\ item = item'
  | CIter h, CIter h' =>
      like_array h h' /\
      forall v v', nth_error (a_data h) i = Some v -> nth_error (a_data h') i = Some v' -> close delta v v'
  | _, _ => False
  end.

(** Entry by entry, the change from [hs] to [hs']. *)
Fixpoint changes (hs hs' : list Qc) : list Qc :=
  match hs, hs' with
  | h :: hs, h' :: hs' => (h' - h) :: changes hs hs'
  | _, _ => []
  end.

(** Partial derivatives with respect to the halting probabilities of the steps, in order, when [n] is the
    halting step ([None]: not halted) and [us] the updates; steps not listed have derivative 0. *)
Definition probability_slopes (n : option nat) (steps : nat) : list Qc :=
  match n with None => repeat 1 steps | Some _ => [] end.
Definition residual_slopes (n : option nat) : list Qc :=
  match n with None => [] | Some n => repeat (-(1)) n end.
Definition value_slopes (n : option nat) (us : list Qc) : list Qc :=
  match n with None => us | Some n => map (fun u => u - nth n us 0) (firstn n us) end.

(** The same calls with like updates, whatever numbers they contain. *)
Definition same_halting {N} (c c' : call N) : Prop :=
  match c, c' with
  | CCache name item, CCache name' item' => name = name' /\ like_tree item item'
  | CIter h, CIter h' => h = h'
  | CReset, CReset => True
  | _, _ => False
  end.

(** The update of [c] is [alpha] times the one of [c1] plus [beta] times the one of [c2]. *)
Definition mixed (alpha beta : Qc) (c1 c2 c : call QcNum) : Prop :=
  same_halting c1 c2 /\ same_halting c1 c /\
  match c1, c2, c with
  | CCache _ t1, CCache _ t2, CCache _ t =>
      forall l a1 a2 a, nth_error (leaves t1) l = Some a1 -> nth_error (leaves t2) l = Some a2 -> nth_error (leaves t) l = Some a ->
      forall j (x1 x2 x : Qc), nth_error (a_data a1) j = Some x1 -> nth_error (a_data a2) j = Some x2 -> nth_error (a_data a) j = Some x ->
      x = alpha * x1 + beta * x2
  | _, _, _ => True
  end.
(** entry by entry *)
Fixpoint all3 {A} (R : A -> A -> A -> Prop) (l1 l2 l3 : list A) : Prop :=
  match l1, l2, l3 with
  | [], [], [] => True
  | x1 :: l1, x2 :: l2, x3 :: l3 => R x1 x2 x3 /\ all3 R l1 l2 l3
  | _, _, _ => False
  end.
Definition mixture (alpha beta : Qc) : list (call QcNum) -> list (call QcNum) -> list (call QcNum) -> Prop :=
  all3 (mixed alpha beta).
