(** * JAX pytrees.

    Models the part of [jax.tree_util] that the repository uses
    (src/jax_act/core/types.py:3-8,21: nested tuples, lists and dicts with tensors as leaves)
    plus the [None] node of JAX, which has no leaf.

    Simplification: a dict inside a pytree is represented by its items sorted by key, because
    every access of the repository to such a dict goes through [tree_flatten], which sorts.
    Of the registered classes, namedtuples are modelled; a class is identified by its name. How
    states.py treats registered dataclasses is the subject of Dataclass.v. *)
From Verif Require Import Base.

(** Node classes, as reported by [PyTreeDef.node_data()]: the class and, for dicts, the keys. *)
Inductive node :=
| NNone
| NTuple
| NList
| NDict (keys : list string)
| NNamed (cls : string).   (* a namedtuple class *)

Inductive tree (L : Type) :=
| Leaf (l : L)
| Node (n : node) (cs : list (tree L)).
Arguments Leaf {L} l.
Arguments Node {L} n cs.

Definition tree_ind' (L : Type) (P : tree L -> Prop)
  (HL : forall l, P (Leaf l))
  (HN : forall n cs, Forall P cs -> P (Node n cs)) : forall t, P t :=
  fix F (t : tree L) : P t :=
    match t with
    | Leaf l => HL l
    | Node n cs =>
        HN n cs ((fix go (cs : list (tree L)) : Forall P cs :=
                    match cs with
                    | [] => Forall_nil P
                    | c :: cs' => Forall_cons c (F c) (go cs')
                    end) cs)
    end.

(** Python's [None]. *)
Definition tnone {L} : tree L := Node NNone [].
Definition is_none {L} (t : tree L) : bool :=
  match t with Node NNone _ => true | _ => false end.

(** [jax.tree_util.tree_leaves]: depth first. *)
Fixpoint leaves {L} (t : tree L) : list L :=
  match t with
  | Leaf l => [l]
  | Node _ cs => flat_map leaves cs
  end.

Fixpoint tmap {A B} (f : A -> B) (t : tree A) : tree B :=
  match t with
  | Leaf l => Leaf (f l)
  | Node n cs => Node n (map (tmap f) cs)
  end.

(** A treedef is a tree with the leaves erased. *)
Definition treedef := tree unit.
(** [jax.tree_util.tree_structure] *)
Definition structure {L} (t : tree L) : treedef := tmap (fun _ => tt) t.

(** [tree_unflatten]: consume leaves depth first; ValueError if too few or too many leaves. *)
Fixpoint unflatten_aux {L} (td : treedef) (q : list L) : res (tree L * list L) :=
  match td with
  | Leaf _ => match q with [] => Err ValueError | x :: q' => Ok (Leaf x, q') end
  | Node n cs =>
      '(cs', q') <- (fix go (cs : list treedef) (q : list L) : res (list (tree L) * list L) :=
                      match cs with
                      | [] => Ok ([], q)
                      | c :: cs0 =>
                          '(t, q1) <- unflatten_aux c q ;;
                          '(ts, q2) <- go cs0 q1 ;;
                          Ok (t :: ts, q2)
                      end) cs q ;;
      Ok (Node n cs', q')
  end.
Definition unflatten {L} (td : treedef) (q : list L) : res (tree L) :=
  '(t, q') <- unflatten_aux td q ;;
  match q' with [] => Ok t | _ => Err ValueError end.

(** [jax.tree_util.tree_map] with a function that may raise. *)
Definition tree_mapM {A B} (f : A -> res B) (t : tree A) : res (tree B) :=
  ls <- mapM f (leaves t) ;; unflatten (structure t) ls.

Definition node_eq_dec (a b : node) : {a = b} + {a <> b}.
Proof. decide equality; [apply (list_eq_dec string_dec)|apply string_dec]. Defined.

(** [treedef_one == treedef_two] *)
Fixpoint td_eqb (a b : treedef) : bool :=
  match a, b with
  | Leaf _, Leaf _ => true
  | Node n cs, Node m ds =>
      (if node_eq_dec n m then true else false) &&
      (fix go (cs ds : list treedef) : bool :=
         match cs, ds with
         | [], [] => true
         | c :: cs', d :: ds' => td_eqb c d && go cs' ds'
         | _, _ => false
         end) cs ds
  | _, _ => false
  end.

(** Trees that denote Python objects: [None] has no children, a dict has one child per key and
    its keys are strictly increasing. *)
Fixpoint sorted_keys (ks : list string) : bool :=
  match ks with
  | k1 :: ((k2 :: _) as ks') => String.ltb k1 k2 && sorted_keys ks'
  | _ => true
  end.
Definition node_wf (n : node) (arity : nat) : bool :=
  match n with
  | NNone => Nat.eqb arity 0
  | NTuple | NList | NNamed _ => true
  | NDict ks => Nat.eqb (List.length ks) arity && sorted_keys ks
  end.
Fixpoint tree_wf {L} (t : tree L) : bool :=
  match t with
  | Leaf _ => true
  | Node n cs => node_wf n (List.length cs) && forallb tree_wf cs
  end.

(** No [None] anywhere in the tree. *)
Fixpoint no_none {L} (t : tree L) : bool :=
  match t with
  | Leaf _ => true
  | Node n cs => match n with NNone => false | _ => forallb no_none cs end
  end.
