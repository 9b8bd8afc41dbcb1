(** * core/utils.py *)
From Verif Require Import Base PyTree Tensor Num.

(** [x[-n:]] for n > 0 *)
Definition last_n {A} (n : nat) (l : list A) : list A := skipn (length l - n) l.

(** src/jax_act/core/utils.py:43-77 [can_right_broadcast].
    The arrays matter only through their shapes. *)
Fixpoint crb_loop (za zb : list nat) : bool :=
  match za, zb with
  | a_dim :: za', b_dim :: zb' =>
      if Nat.eqb a_dim 1 || Nat.eqb b_dim 1 then crb_loop za' zb'
      else if Nat.eqb a_dim b_dim then crb_loop za' zb'
      else false
  | _, _ => true
  end.
Definition can_right_broadcast (sa sb : list nat) : bool :=
  let overlap := Nat.min (length sa) (length sb) in
  if Nat.eqb overlap 0 then true
  else crb_loop (last_n overlap sa) (last_n overlap sb).

(** src/jax_act/core/utils.py:205-225 [setup_left_broadcast]; the target matters only through
    its shape. The [while] loop runs exactly [missing] times: fuel is the number of missing
    dimensions, computed from the two ranks. *)
Fixpoint unsqueeze_loop {A} (missing : nat) (t : tensor A) : tensor A :=
  match missing with
  | 0 => t
  | S n => unsqueeze_loop n (unsqueeze_last t)
  end.
Definition setup_left_broadcast {A} (t : tensor A) (target : list nat) : res (tensor A) :=
  if Nat.eqb (ndim t) 0 then Ok t
  else
    _ <- guard (Nat.leb (length (shape t)) (length target)) AssertionError ;;
    Ok (unsqueeze_loop (length target - length (shape t)) t).

(** The same function called with an arbitrary Python object as the target
    (controller.py:398-399 passes a whole accumulator): a pytree collection has no attribute
    [shape]. The attribute is only read when the tensor is not a scalar. *)
Definition setup_left_broadcast_obj {A} {N : numsys} (t : tensor A) (target : tree (array N))
  : res (tensor A) :=
  if Nat.eqb (ndim t) 0 then Ok t
  else match target with
       | Leaf a => setup_left_broadcast t (a_shape a)
       | Node _ _ => Err AttributeError
       end.

(** src/jax_act/core/utils.py:228-266 [merge_pytrees] *)
Definition merge_pytrees {A B C} (f : A -> B -> res C) (primary : tree A) (aux : tree B)
  : res (tree C) :=
  let td := structure primary in
  let pl := leaves primary in
  let al := leaves aux in
  _ <- guard (Nat.eqb (length pl) (length al)) AssertionError ;;
  new_leaves <- mapM2 f pl al ;;
  unflatten td new_leaves.

(** src/jax_act/core/utils.py:269-289 [are_pytree_structure_equal]: every leaf is mapped to
    [None] (which is a node without leaves, not a leaf), then the treedefs are compared. *)
Fixpoint none_out {L} (t : tree L) : treedef :=
  match t with
  | Leaf _ => Node NNone []
  | Node n cs => Node n (map none_out cs)
  end.
Definition are_pytree_structure_equal {A B} (t1 : tree A) (t2 : tree B) : bool :=
  td_eqb (none_out t1) (none_out t2).

(** src/jax_act/core/utils.py:292-313 [are_pytrees_equal].
    Leaves are arrays (jax or numpy, told apart by their type) or other Python objects, the
    latter represented by a type tag and an identity code that decides [==].
    Simplification: [==] of numpy arrays behaves as [==] of jax arrays (raises when the shapes
    do not broadcast). *)
Inductive eleaf (N : numsys) :=
| EArr (is_np : bool) (a : array N)
| EObj (ty : nat) (code : Z).
Arguments EArr {N} is_np a.
Arguments EObj {N} ty code.

Definition allclose {N} (a b : array N) : res bool :=
  t <- tbin (v_close N) (a_ten a) (a_ten b) ;; Ok (tall t).
Definition all_eq {N} (a b : array N) : res bool :=
  t <- tbin (v_eqb N) (a_ten a) (a_ten b) ;; Ok (tall t).
Definition are_leaves_equal {N} (use_allclose : bool) (l1 l2 : eleaf N) : res bool :=
  match l1, l2 with
  | EArr n1 a1, EArr n2 a2 =>
      if negb (Bool.eqb n1 n2) then Ok false
      else if use_allclose then allclose a1 a2 else all_eq a1 a2
  | EObj t1 c1, EObj t2 c2 =>
      if negb (Nat.eqb t1 t2) then Ok false else Ok (Z.eqb c1 c2)
  | _, _ => Ok false
  end.
Definition are_pytrees_equal {N} (use_allclose : bool) (t1 t2 : tree (eleaf N)) : res bool :=
  result_tree <- merge_pytrees (are_leaves_equal use_allclose) t1 t2 ;;
  Ok (forallb (fun b => b) (leaves result_tree)).

(** [jax.tree_util.treedef_is_leaf]: [num_nodes == 1], true of leaves, of empty collections and
    of [None]. *)
Definition treedef_is_leaf (td : treedef) : bool :=
  match td with Leaf _ => true | Node _ [] => true | Node _ (_ :: _) => false end.
(** src/jax_act/core/utils.py:321-328 [_is_empty_collection] (only called on one-node treedefs) *)
Definition is_empty_collection (td : treedef) : bool :=
  match td with Leaf _ => false | Node _ _ => true end.

(** src/jax_act/core/utils.py:329-358 [_count_linked_leaves] *)
Fixpoint count_linked_leaves (td : treedef) : nat :=
  if treedef_is_leaf td then if is_empty_collection td then 0 else 1
  else
    match td with
    | Leaf _ => 0
    | Node _ cs => fold_left (fun acc c => acc + count_linked_leaves c) cs 0
    end.

(** src/jax_act/core/utils.py:360-430 [_validate_children_descent]; both arguments are
    collections with children here. [node_data()] is the class and, for dicts, the keys. *)
Definition node_class_eqb (n m : node) : bool :=
  match n, m with
  | NNone, NNone | NTuple, NTuple | NList, NList | NDict _, NDict _ => true
  | NNamed c, NNamed d => String.eqb c d
  | _, _ => false
  end.
Fixpoint keys_loop (ks1 ks2 : list string) : bool :=
  match ks1, ks2 with
  | k1 :: ks1', k2 :: ks2' => String.eqb k1 k2 && keys_loop ks1' ks2'
  | _, _ => true
  end.
Definition node_keys (n : node) : list string := match n with NDict ks => ks | _ => [] end.
Definition validate_children_descent (n : node) (n_children : nat) (m : node) (m_children : nat)
  : res unit :=
  _ <- guard (node_class_eqb n m) RuntimeError ;;
  _ <- guard (Nat.eqb n_children m_children) RuntimeError ;;
  guard (keys_loop (node_keys n) (node_keys m)) RuntimeError.

(** src/jax_act/core/utils.py:435-543 [_replicate_leaves] (and [_repeat_node], 316-319).
    The queue of source leaves is threaded through; [pop(0)] on an empty queue is IndexError. *)
Fixpoint replicate_leaves {L} (src tgt : treedef) (q : list L) : res (list L * list L) :=
  if treedef_is_leaf src then
    if is_empty_collection src then Ok ([], q)
    else
      match q with
      | [] => Err IndexError
      | x :: q' => Ok (repeat x (count_linked_leaves tgt), q')
      end
  else if treedef_is_leaf tgt then Err RuntimeError
  else
    match src, tgt with
    | Leaf _, _ | _, Leaf _ => Err RuntimeError (* not reached: both have children *)
    | Node n cs, Node m ds =>
        _ <- validate_children_descent n (length cs) m (length ds) ;;
        (fix go (cs ds : list treedef) (q : list L) : res (list L * list L) :=
           match cs, ds with
           | c :: cs', d :: ds' =>
               '(update, q1) <- rewrap RuntimeError (replicate_leaves c d q) ;;
               '(rest, q2) <- go cs' ds' q1 ;;
               Ok (update ++ rest, q2)
           | _, _ => Ok ([], q)
           end) cs ds q
    end.

(** src/jax_act/core/utils.py:79-135 [broadcast_pytree_shape] *)
Definition broadcast_pytree_shape {L M} (source : tree L) (target : tree M) : res (tree L) :=
  '(final, remainder) <- replicate_leaves (structure source) (structure target) (leaves source) ;;
  _ <- guard (Nat.eqb (length final) (length (leaves target))) AssertionError ;;
  _ <- guard (Nat.eqb (length remainder) 0) AssertionError ;;
  unflatten (structure target) final.

(** src/jax_act/core/utils.py:138-202 [execute_binary_operator]; the operator is any function on
    arrays that may raise. *)
Definition apply_left_broadcast {N} (operator : array N -> array N -> res (array N))
  (la lb : array N) : res (array N) :=
  rewrap RuntimeError (
    if Nat.ltb (ndim (a_ten lb)) (ndim (a_ten la)) then
      lb' <- setup_left_broadcast (a_ten lb) (a_shape la) ;; operator la (mkA (a_dt lb) lb')
    else if Nat.ltb (ndim (a_ten la)) (ndim (a_ten lb)) then
      la' <- setup_left_broadcast (a_ten la) (a_shape lb) ;; operator (mkA (a_dt la) la') lb
    else operator la lb).
Definition execute_binary_operator {N} (operator : array N -> array N -> res (array N))
  (a b : tree (array N)) : res (tree (array N)) :=
  '(a', b') <- rewrap RuntimeError (
     match broadcast_pytree_shape a b with
     | Ok a' => Ok (a', b)
     | Err RuntimeError => b' <- broadcast_pytree_shape b a ;; Ok (a, b')
     | Err e => Err e
     end) ;;
  output <- mapM2 (apply_left_broadcast operator) (leaves a') (leaves b') ;;
  unflatten (structure a') output.
