(** * [checkify]: core/utils.py:27-41 and core/tensoreditor.py:280-299

    A Python function that calls [checkify.check] is modelled by the course of one call: the checks it reaches,
    in order, each with its value and message, and how it ends. Under [checkify.checkify] a failed check is
    recorded and execution goes on; called directly, [checkify.check] raises at once. *)
From Verif Require Import Base.

Inductive program (A : Type) :=
| Return (a : A)                                              (* [return a] *)
| Raise (e : exn)                                             (* a Python exception *)
| Check (ok : bool) (message : string) (rest : program A).    (* [checkify.check(ok, message)] *)
Arguments Return {A} a.
Arguments Raise {A} e.
Arguments Check {A} ok message rest.

(** What the caller sees. *)
Inductive result (A : Type) := Returned (a : A) | Raised (e : exn) | CheckFailed (message : string).
Arguments Returned {A} a.
Arguments Raised {A} e.
Arguments CheckFailed {A} message.

(** A direct call. *)
Fixpoint direct {A} (p : program A) : result A :=
  match p with
  | Return a => Returned a
  | Raise e => Raised e
  | Check true _ rest => direct rest
  | Check false m _ => CheckFailed m
  end.
(** [checkify.checkify(function)]: the error value (the first failure) and the output. *)
Fixpoint checkify {A} (p : program A) : res (option string * A) :=
  match p with
  | Return a => Ok (None, a)
  | Raise e => Err e
  | Check ok m rest =>
      '(errors, output) <- checkify rest ;; Ok (if ok then errors else Some m, output)
  end.
(** [errors.throw()] and [return output] *)
Definition throw {A} (r : res (option string * A)) : result A :=
  match r with
  | Err e => Raised e
  | Ok (Some m, _) => CheckFailed m
  | Ok (None, output) => Returned output
  end.
(** utils.py:27-41 [jit_and_checkify]. [jax.jit] is the identity here: what it does to Python floats is the
    subject of Jit.v. *)
Definition jit {X Y : Type} (f : X -> Y) : X -> Y := f.
Definition jit_and_checkify {X A} (function : X -> program A) : X -> result A :=
  let checkified_function := fun x => checkify (function x) in
  let jitted_function := jit checkified_function in
  fun args => throw (jitted_function args).

(** tensoreditor.py:280-299 [_execute_validation]; [standard]: the error mode is "standard" *)
Definition execute_validation_program (standard : bool) (function : program unit) : result unit :=
  if standard then throw (checkify function) else Returned tt.
(** The reading Editor.v uses: the values of the checks, or the Python exception. *)
Fixpoint checks_of {A} (p : program A) : res (list bool) :=
  match p with
  | Return _ => Ok []
  | Raise e => Err e
  | Check ok _ rest => bs <- checks_of rest ;; Ok (ok :: bs)
  end.
(** [result] without the message. *)
Definition as_res (r : result unit) : res unit :=
  match r with Returned _ => Ok tt | Raised e => Err e | CheckFailed _ => Err JaxRuntimeError end.
