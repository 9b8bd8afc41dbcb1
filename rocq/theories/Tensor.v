(** * Tensors: shape and row-major data, numpy broadcasting, [lax.select].

    Models the jax.numpy / jax.lax primitives used by the repository, not repository code. *)
From Verif Require Import Base.

Definition size (sh : list nat) : nat := fold_right Nat.mul 1 sh.

Record tensor (A : Type) := mkT { shape : list nat; data : list A }.
Arguments mkT {A} shape data.
Arguments shape {A} t.
Arguments data {A} t.

Definition twf {A} (t : tensor A) : Prop := length (data t) = size (shape t).
Definition ndim {A} (t : tensor A) : nat := length (shape t).

Definition tfull {A} (sh : list nat) (x : A) : tensor A := mkT sh (repeat x (size sh)).
Definition tensor_map {A B} (f : A -> B) (t : tensor A) : tensor B :=
  mkT (shape t) (map f (data t)).

(** Cut a list in [n] chunks of [k] elements. *)
Fixpoint chunks {A} (k n : nat) (d : list A) : list (list A) :=
  match n with
  | 0 => []
  | S n' => firstn k d :: chunks k n' (skipn k d)
  end.

(** Broadcasting of row-major data between shapes of equal rank: a dimension is kept, or
    repeated if the source dimension is one. *)
Fixpoint bcast_same {A} (src dst : list nat) (d : list A) : option (list A) :=
  match src, dst with
  | [], [] => Some d
  | s :: src', t :: dst' =>
      if Nat.eqb s t then
        (fix go (cs : list (list A)) : option (list A) :=
           match cs with
           | [] => Some []
           | c :: cs' =>
               match bcast_same src' dst' c, go cs' with
               | Some x, Some y => Some (x ++ y)
               | _, _ => None
               end
           end) (chunks (size src') s d)
      else if Nat.eqb s 1 then
        match bcast_same src' dst' d with
        | Some x => Some (concat (repeat x t))
        | None => None
        end
      else None
  | _, _ => None
  end.

(** [jnp.broadcast_to]: pad with leading ones, then broadcast. *)
Definition broadcast_to {A} (t : tensor A) (sh : list nat) : res (tensor A) :=
  if Nat.leb (ndim t) (length sh) then
    match bcast_same (repeat 1 (length sh - ndim t) ++ shape t) sh (data t) with
    | Some d => Ok (mkT sh d)
    | None => Err JaxError
    end
  else Err JaxError.

(** The numpy rule for the shape of the result of a binary operation. *)
Fixpoint bshapes_same (a b : list nat) : option (list nat) :=
  match a, b with
  | [], [] => Some []
  | x :: a', y :: b' =>
      match bshapes_same a' b' with
      | Some r => if Nat.eqb x y then Some (x :: r)
                  else if Nat.eqb x 1 then Some (y :: r)
                  else if Nat.eqb y 1 then Some (x :: r)
                  else None
      | None => None
      end
  | _, _ => None
  end.
Definition pad_to (n : nat) (sh : list nat) : list nat := repeat 1 (n - length sh) ++ sh.
Definition broadcast_shapes (a b : list nat) : option (list nat) :=
  let n := Nat.max (length a) (length b) in
  bshapes_same (pad_to n a) (pad_to n b).

(** A broadcasting elementwise binary operation. *)
Definition tbin {A B C} (f : A -> B -> C) (x : tensor A) (y : tensor B) : res (tensor C) :=
  match broadcast_shapes (shape x) (shape y) with
  | None => Err JaxError
  | Some sh =>
      x' <- broadcast_to x sh ;;
      y' <- broadcast_to y sh ;;
      Ok (mkT sh (map2 f (data x') (data y')))
  end.

(** [jax.lax.select] without the dtype condition: the cases must have equal shapes, the
    predicate is a scalar or has that shape too. *)
Fixpoint sel {A} (p : list bool) (a b : list A) : list A :=
  match p, a, b with
  | c :: p', x :: a', y :: b' => (if c then x else y) :: sel p' a' b'
  | _, _, _ => []
  end.
Definition tselect {A} (p : tensor bool) (a b : tensor A) : res (tensor A) :=
  if shape_eqb (shape a) (shape b) then
    if shape_eqb (shape p) (shape a) then Ok (mkT (shape a) (sel (data p) (data a) (data b)))
    else if shape_eqb (shape p) [] then
      Ok (mkT (shape a) (sel (repeat (hd false (data p)) (length (data a))) (data a) (data b)))
    else Err JaxError
  else Err JaxError.

(** [tensor[..., None]] *)
Definition unsqueeze_last {A} (t : tensor A) : tensor A := mkT (shape t ++ [1]) (data t).

Definition tall (t : tensor bool) : bool := forallb (fun b => b) (data t).
Definition tany (t : tensor bool) : bool := existsb (fun b => b) (data t).
Definition tnot (t : tensor bool) : tensor bool := tensor_map negb t.
