(** * Base: exceptions as values, results, Python dictionaries.

    Models no function of the repository by itself; it is the vocabulary in which the
    repository's functions are written. *)
From Coq Require Export String List Arith ZArith Lia Bool.
Export ListNotations.
Open Scope list_scope.

(** Python exception classes the code can raise.
    [JaxRuntimeError] is [jax.experimental.checkify.JaxRuntimeError] (a subclass of ValueError).
    [JaxError] stands for the TypeError or ValueError that JAX itself raises for
    incompatible shapes or dtypes (the class differs between JAX releases). *)
Inductive exn :=
| ValueError | TypeError | RuntimeError | AssertionError | KeyError
| AttributeError | IndexError | NameError | NotImplementedError
| JaxRuntimeError | JaxError.

Inductive res (A : Type) :=
| Ok (a : A)
| Err (e : exn).
Arguments Ok {A} a.
Arguments Err {A} e.

Definition bind {A B} (r : res A) (f : A -> res B) : res B :=
  match r with Ok a => f a | Err e => Err e end.

Notation "x <- e ;; k" := (bind e (fun x => k))
  (at level 61, e at next level, right associativity).
Notation "' p <- e ;; k" := (bind e (fun p => k))
  (at level 61, p pattern, e at next level, right associativity).

(** [raise ... if not b]. *)
Definition guard (b : bool) (e : exn) : res unit := if b then Ok tt else Err e.

(** [try: r except Exception as err: raise e from err]. *)
Definition rewrap {A} (e : exn) (r : res A) : res A :=
  match r with Ok a => Ok a | Err _ => Err e end.

Definition is_ok {A} (r : res A) : bool := match r with Ok _ => true | Err _ => false end.

Fixpoint mapM {A B} (f : A -> res B) (l : list A) : res (list B) :=
  match l with
  | [] => Ok []
  | x :: l' => y <- f x ;; ys <- mapM f l' ;; Ok (y :: ys)
  end.

(** Loop over [zip(l1, l2)] collecting results; [zip] stops at the shorter list. *)
Fixpoint mapM2 {A B C} (f : A -> B -> res C) (l1 : list A) (l2 : list B) : res (list C) :=
  match l1, l2 with
  | x :: l1', y :: l2' => z <- f x y ;; zs <- mapM2 f l1' l2' ;; Ok (z :: zs)
  | _, _ => Ok []
  end.

(** ** Python dictionaries with string keys: items in insertion order. *)
Definition dict (V : Type) := list (string * V).

Fixpoint dget {V} (k : string) (d : dict V) : option V :=
  match d with
  | [] => None
  | (k', v) :: d' => if String.eqb k k' then Some v else dget k d'
  end.

(** [d[k] = v]: overwrite in place, or append. *)
Fixpoint dset {V} (k : string) (v : V) (d : dict V) : dict V :=
  match d with
  | [] => [(k, v)]
  | (k', v') :: d' => if String.eqb k k' then (k', v) :: d' else (k', v') :: dset k v d'
  end.

(** [d.pop(k)] (the value is dropped); the KeyError is raised by [dpop]. *)
Fixpoint ddel {V} (k : string) (d : dict V) : dict V :=
  match d with
  | [] => []
  | (k', v') :: d' => if String.eqb k k' then d' else (k', v') :: ddel k d'
  end.

Definition dkeys {V} (d : dict V) : list string := map fst d.
Definition dvals {V} (d : dict V) : list V := map snd d.
Definition dmem {V} (k : string) (d : dict V) : bool :=
  match dget k d with Some _ => true | None => false end.

(** [d[k]] *)
Definition dlookup {V} (k : string) (d : dict V) : res V :=
  match dget k d with Some v => Ok v | None => Err KeyError end.

Definition dpop {V} (k : string) (d : dict V) : res (dict V) :=
  if dmem k d then Ok (ddel k d) else Err KeyError.

(** [{name: f(value) for name, value in d.items()}] *)
Fixpoint dmapM {V W} (f : V -> res W) (d : dict V) : res (dict W) :=
  match d with
  | [] => Ok []
  | (k, v) :: d' => w <- f v ;; ws <- dmapM f d' ;; Ok ((k, w) :: ws)
  end.

Definition shape_eq_dec : forall a b : list nat, {a = b} + {a <> b} := list_eq_dec Nat.eq_dec.
Definition shape_eqb (a b : list nat) : bool := if shape_eq_dec a b then true else false.

(** Map a binary function over two lists (stops at the shorter one). *)
Fixpoint map2 {A B C} (f : A -> B -> C) (l1 : list A) (l2 : list B) : list C :=
  match l1, l2 with
  | x :: l1', y :: l2' => f x y :: map2 f l1' l2'
  | _, _ => []
  end.
