(** * Vocabulary for sharing of containers (C77) *)
From Verif Require Import Base PyTree Tensor Num Utils States Controller Builder Viewer Editor Refs.

Section RefsSpec.
  Context {N : numsys}.
  Notation tr := (tree (array N)).

  (** Container [l] is part of the object [v]. *)
  Inductive reaches (h : containers N) : pyval N -> nat -> Prop :=
  | reaches_here l : reaches h (PRef l) l
  | reaches_below l n vs v l' : nth_error h l = Some (n, vs) -> In v vs -> reaches h v l' -> reaches h (PRef l) l'.
  (** Container [l] is part of one of the objects in the tables of the controller. *)
  Definition holds (h : containers N) (o : ostate N) (l : nat) : Prop :=
    exists v, In v (dvals (o_defaults o) ++ dvals (o_accumulators o) ++ dvals (o_updates o)) /\ reaches h v l.

  (** What user code can do to a container: give a list other items, a dict other items. Tuples do
      not change. *)
  Fixpoint overwrite (h : containers N) (l : nat) (c : container N) : containers N :=
    match h, l with
    | [], _ => []
    | _ :: h', 0 => c :: h'
    | x :: h', S l' => x :: overwrite h' l' c
    end.
  Definition user_write (h : containers N) (l : nat) (c : container N) : containers N :=
    match nth_error h l, c with
    | Some (NList, _), (NList, _) | Some (NDict _, _), (NDict _, _) => overwrite h l c
    | _, _ => h
    end.

  (** A program: calls on the controller, mixed with work on containers. A call that raises leaves
      the program with the controller it had. *)
  Inductive event :=
  | ECall (c : ocall N (pyval N))
  | EMake (c : container N)
  | EWrite (l : nat) (c : container N).

  (** A call with its argument as it reads at this moment. *)
  Definition reads (limit : nat) (h : containers N) (c : ocall N (pyval N)) : res (ocall N tr) :=
    match c with
    | ODefine name v => t <- fetch limit h v ;; Ok (ODefine name t)
    | ODelete name => Ok (ODelete name)
    | OCache name v => t <- fetch limit h v ;; Ok (OCache name t)
    | OIter p => Ok (OIter p)
    | OReset => Ok OReset
    | OTransform f => Ok (OTransform f)
    | OSet w mode name v => t <- fetch limit h v ;; Ok (OSet w mode name t)
    end.
  Definition argument (c : ocall N (pyval N)) : option (pyval N) :=
    match c with
    | ODefine _ v | OCache _ v | OSet _ _ _ v => Some v
    | _ => None
    end.

  Definition object_event (limit : nat) (o : ostate N) (h : containers N) (e : event)
    : ostate N * containers N :=
    match e with
    | ECall c => match object_call limit o c h with (Ok o', h') => (o', h') | (Err _, h') => (o, h') end
    | EMake c => (o, h ++ [c])
    | EWrite l c => (o, user_write h l c)
    end.
  Fixpoint object_run (limit : nat) (o : ostate N) (h : containers N) (es : list event)
    : ostate N * containers N :=
    match es with
    | [] => (o, h)
    | e :: es' => let '(o', h') := object_event limit o h e in object_run limit o' h' es'
    end.
  (** The calls of the program with the arguments as they read when they were passed. *)
  Fixpoint passed (limit : nat) (o : ostate N) (h : containers N) (es : list event) : list (ocall N tr) :=
    match es with
    | [] => []
    | e :: es' =>
        let '(o', h') := object_event limit o h e in
        match e with
        | ECall c => match reads limit h c with Ok c' => [c'] | Err _ => [] end
        | _ => []
        end ++ passed limit o' h' es'
    end.
  (** These calls on a controller whose pytrees are values. *)
  Fixpoint value_run (s : state N) (cs : list (ocall N tr)) : state N :=
    match cs with
    | [] => s
    | c :: cs' => value_run (match value_call s c with Ok s' => s' | Err _ => s end) cs'
    end.
  (** The program passes readable objects and never writes to a container the controller holds. *)
  Fixpoint careful (limit : nat) (o : ostate N) (h : containers N) (es : list event) : Prop :=
    match es with
    | [] => True
    | e :: es' =>
        match e with
        | ECall c => exists c', reads limit h c = Ok c'
        | EMake _ => True
        | EWrite l _ => ~ holds h o l
        end /\
        let '(o', h') := object_event limit o h e in careful limit o' h' es'
    end.
  (** The same, in terms of the program alone: it writes only to containers it made itself and has
      not passed to the controller, neither directly nor inside another container. *)
  Fixpoint private (limit : nat) (o : ostate N) (h : containers N) (mine : nat -> Prop) (es : list event) : Prop :=
    match es with
    | [] => True
    | e :: es' =>
        let '(o', h') := object_event limit o h e in
        match e with
        | ECall c =>
            (exists c', reads limit h c = Ok c') /\
            private limit o' h' (fun l => mine l /\ forall v, argument c = Some v -> ~ reaches h v l) es'
        | EMake _ => private limit o' h' (fun l => mine l \/ l = length h) es'
        | EWrite l _ => mine l /\ private limit o' h' mine es'
        end
    end.
End RefsSpec.
Arguments event N : clear implicits.
