(** * Vocabulary for the properties of core/utils.py (no model code). *)
From Verif Require Import Base PyTree Tensor Num.

(** The numpy rule: counted from the right, two dimensions are equal or one of them is 1. *)
Definition compatible (sa sb : list nat) : Prop :=
  forall i x y, nth_error (rev sa) i = Some x -> nth_error (rev sb) i = Some y ->
    x = y \/ x = 1 \/ y = 1.

(** [spreads src tgt out]: [src] is a prefix of [tgt] and [out] is [tgt] with each leaf replaced
    by the leaf of [src] on the way to it. An empty container of [src] may face any branch of
    [tgt] that has no leaves. *)
Inductive spreads {L M} : tree L -> tree M -> tree L -> Prop :=
| spreads_leaf x t : spreads (Leaf x) t (tmap (fun _ => x) t)
| spreads_empty n t o : leaves t = [] -> structure o = structure t -> spreads (Node n []) t o
| spreads_node n cs ds os : spreads_list cs ds os -> spreads (Node n cs) (Node n ds) (Node n os)
with spreads_list {L M} : list (tree L) -> list (tree M) -> list (tree L) -> Prop :=
| spreads_nil : spreads_list [] [] []
| spreads_cons c d o cs ds os :
    spreads c d o -> spreads_list cs ds os -> spreads_list (c :: cs) (d :: ds) (o :: os).

(** [clash src tgt]: somewhere a non-empty container of [src] faces a leaf or a container of
    another kind, other keys or another number of children in [tgt]. *)
Inductive clash {L M} : tree L -> tree M -> Prop :=
| clash_leaf n c cs y : clash (Node n (c :: cs)) (Leaf y)
| clash_kind n c cs m ds : n <> m \/ length (c :: cs) <> length ds -> clash (Node n (c :: cs)) (Node m ds)
| clash_inside n c cs ds i x y : nth_error (c :: cs) i = Some x -> nth_error ds i = Some y -> clash x y ->
    clash (Node n (c :: cs)) (Node n ds).

(** The operands of a binary operator after one was spread over the other: the left one if
    possible, otherwise the right one. *)
Definition paired {L M} (a : tree L) (b : tree M) (a' : tree L) (b' : tree M) : Prop :=
  (spreads a b a' /\ b' = b) \/ (clash a b /\ spreads b a b' /\ a' = a).

(** A shape lined up on the left with a target of rank [n]: ones are appended, except that a
    scalar stays a scalar. *)
Definition left_aligned (sh : list nat) (n : nat) : list nat :=
  match sh with [] => [] | _ => sh ++ repeat 1 (n - length sh) end.
Definition aligned {N} (a : array N) (n : nat) : array N :=
  mkA (a_dt a) (mkT (left_aligned (a_shape a) n) (a_data a)).

(** Structure comparison that cannot tell a leaf from [None]. *)
Inductive same_up_to_none {A B} : tree A -> tree B -> Prop :=
| sun_ll x y : same_up_to_none (Leaf x) (Leaf y)
| sun_ln x : same_up_to_none (Leaf x) (Node NNone [])
| sun_nl y : same_up_to_none (Node NNone []) (Leaf y)
| sun_node n cs ds : sun_list cs ds -> same_up_to_none (Node n cs) (Node n ds)
with sun_list {A B} : list (tree A) -> list (tree B) -> Prop :=
| sun_nil : sun_list [] []
| sun_cons c d cs ds : same_up_to_none c d -> sun_list cs ds -> sun_list (c :: cs) (d :: ds).
