(** * Vocabulary for statements about one batch element. Nothing here models repository code. *)
From Coq Require Import QArith Qcanon.
From Verif Require Import Base PyTree Tensor Num States Controller Wf Spec History.

Close Scope Qc_scope. Close Scope Q_scope. Open Scope string_scope. Open Scope list_scope. Open Scope nat_scope.

Section Elements.
  Context {N : numsys}.
  Notation st := (state N).
  Notation tr := (tree (array N)).

  (** Probability, residual and iteration count of batch element [i]. *)
  Definition element (s : st) (i : nat) (p r n : val N) : Prop :=
    nth_error (a_data (probabilities s)) i = Some p /\
    nth_error (a_data (residuals s)) i = Some r /\
    nth_error (a_data (iterations s)) i = Some n.
  (** The halting values a call hands over all satisfy [okv]. *)
  Definition halting_values (okv : val N -> Prop) (c : call N) : Prop :=
    match c with CIter h => Forall okv (a_data h) | _ => True end.
  (** The numbers of the updates a call hands over all satisfy [oku]. *)
  Definition update_values (oku : val N -> Prop) (c : call N) : Prop :=
    match c with CCache _ item => Forall (fun a => Forall oku (a_data a)) (leaves item) | _ => True end.
  (** The halting values element [i] receives from calls. *)
  Definition value_of (i : nat) (c : call N) : list (val N) :=
    match c with CIter h => match nth_error (a_data h) i with Some v => [v] | None => [] end | _ => [] end.
  Definition values_of (i : nat) (cs : list (call N)) : list (val N) := flat_map (value_of i) cs.
  (** Residual, iteration count and all accumulator entries of element [b] are the same in [s'] as in [s]. *)
  Definition same_element (b : nat) (s s' : st) : Prop :=
    nth_error (a_data (residuals s')) b = nth_error (a_data (residuals s)) b /\
    nth_error (a_data (iterations s')) b = nth_error (a_data (iterations s)) b /\
    forall k t t', dget k (accumulators s) = Some t -> dget k (accumulators s') = Some t' ->
      forall l a a', nth_error (leaves t) l = Some a -> nth_error (leaves t') l = Some a' ->
      forall R, a_shape a = batch_shape s ++ R ->
      forall j, j / size R = b -> nth_error (a_data a') j = nth_error (a_data a) j.

  (** ** Readings of calls *)
  (** Calls that agree on batch element [b]. *)
  Definition agree_call (b : nat) (B : list nat) (c1 c2 : call N) : Prop :=
    match c1, c2 with
    | CCache n1 i1, CCache n2 i2 => n1 = n2 /\ agree_tree b B i1 i2
    | CIter h1, CIter h2 => agree_arr b B h1 h2
    | CReset, CReset => True
    | _, _ => False
    end.
  (** Calls that cache an update for [k], calls that iterate, and how many of them there are. *)
  Definition caches (k : string) (c : call N) : bool :=
    match c with CCache name item => String.eqb name k && negb (is_none item) | _ => false end.
  Definition iterates (c : call N) : bool := match c with CIter _ => true | _ => false end.
  Definition count {A} (f : A -> bool) (l : list A) : nat := length (filter f l).
  Definition pending_count (s : st) (k : string) : nat :=
    match dget k (updates s) with Some u => if is_none u then 0 else 1 | None => 0 end.
  (** Several updates cached one after the other. *)
  Fixpoint cache_all (s : st) (l : list (string * tr)) : res st :=
    match l with [] => Ok s | (n, i) :: l' => x <- cache_update s n i ;; cache_all x l' end.
End Elements.

(** The controller with another depression constant. *)
Definition with_dep {N} (s : state N) (d : scl N) : state N :=
  mkState (epsilon s) (iterations s) (residuals s) (probabilities s) (defaults s)
    (accumulators s) (updates s) d (error_mode s).
Definition in01 (p : Qc) : Prop := (0 <= p /\ p <= 1)%Qc.
(** the tensor [d * h] *)
Definition times (d : Qc) (h : array QcNum) : array QcNum :=
  mkA (N := QcNum) (a_dt h) (mkT (a_shape h) (map (fun v : Qc => (d * v)%Qc) (a_data h))).
(** The call with its halting probabilities multiplied by [d]; calls with halting probabilities in [0,1]. *)
Definition scale_call (d : Qc) (c : call QcNum) : call QcNum :=
  match c with CIter h => CIter (times d h) | c => c end.
Definition unit_range (c : call QcNum) : Prop := match c with CIter h => Forall in01 (a_data h) | _ => True end.

