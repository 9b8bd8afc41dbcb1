(** * Specification vocabulary for the builder: what a shapes pytree describes, sequences of
    builder calls. *)
From Verif Require Import Base PyTree Tensor Num States Builder Wf.

(** A list of Python ints. *)
Definition int_list (zs : list Z) : tree sleaf := Node NList (map (fun z => Leaf (SInt z)) zs).
Definition shape_of (zs : list Z) : list nat := map Z.to_nat zs.

Section BuilderSpec.
  Context {N : numsys}.
  Notation st := (state N).
  Notation tr := (tree (array N)).

  (** [describes d fill shapes t]: [t] has a tensor full of [fill] wherever [shapes] has a list of
      ints, which is its shape, and is otherwise built from the same containers. *)
  Inductive describes (d : dtype) (fill : val N) : tree sleaf -> tr -> Prop :=
  | D_leaf zs : Forall (fun z => 0 <= z)%Z zs ->
      describes d fill (int_list zs)
        (Leaf (mkA d (mkT (shape_of zs) (repeat fill (size (shape_of zs))))))
  | D_node n cs ts : (forall zs, Node n cs <> int_list zs) -> Forall2 (describes d fill) cs ts ->
      describes d fill (Node n cs) (Node n ts).

  (** Public and private definition methods of a builder. *)
  Inductive bcall :=
  | BDirect (name : string) (definition : tr)
  | BShape (name : string) (shapes : tree sleaf) (d : dtype) (fill : scl N)
  | BDelete (name : string).
  Definition apply_bcall (s : st) (c : bcall) : res st :=
    match c with
    | BDirect name t => define_directly s name t
    | BShape name sh d fill => define_by_shape s name sh d fill
    | BDelete name => delete_definition s name
    end.
  Definition bafter (s : st) (c : bcall) : st := match apply_bcall s c with Ok s' => s' | Err _ => s end.
  Definition brun (s : st) (cs : list bcall) : st := fold_left bafter cs s.
  Definition bcall_wf (c : bcall) : Prop :=
    match c with BDirect _ t => Forall awf (leaves t) | _ => True end.

  (** A leaf satisfies the contract of a definition. *)
  Definition batch_prefixed (B : list nat) (a : array N) : Prop := exists R, a_shape a = B ++ R.
End BuilderSpec.
Arguments bcall N : clear implicits.
