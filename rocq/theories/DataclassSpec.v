(** * Vocabulary for dataclasses in pytrees. No model code. *)
From Verif Require Import Base PyTree.

(** A tree without an instance of a dataclass, [is_dataclass] telling which classes are. *)
Inductive free_of {L} (is_dataclass : string -> Prop) : tree L -> Prop :=
| free_leaf l : free_of is_dataclass (Leaf l)
| free_node n cs : (forall cls, n = NNamed cls -> ~ is_dataclass cls) -> Forall (free_of is_dataclass) cs -> free_of is_dataclass (Node n cs).

(** The instance of [cls] whose fields, in the order of declaration, are [vs]. *)
Definition instance {L} (cls : string) (vs : list L) : tree L := Node (NNamed cls) (map Leaf vs).
(** The dict with the given keys and values. *)
Definition dictionary {L} (ks : list string) (vs : list L) : tree L := Node (NDict ks) (map Leaf vs).
