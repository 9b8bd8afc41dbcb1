(** * One batch element in two processes of different batch shapes (no model code). *)
From Verif Require Import Base PyTree Tensor Num States Wf History ElementSpec.

Section SliceSpec.
  Context {N : numsys}.
  Notation st := (state N).
  Notation tr := (tree (array N)).

  (** [same_row B1 b1 B2 b2 a1 a2]: both arrays are made of rows of one shape [R], one for each
      element of the batch shapes [B1] and [B2]; row [b1] of [a1] equals row [b2] of [a2]. *)
  Definition same_row (B1 : list nat) (b1 : nat) (B2 : list nat) (b2 : nat) (a1 a2 : array N) : Prop :=
    exists R, a_shape a1 = B1 ++ R /\ a_shape a2 = B2 ++ R /\ a_dt a1 = a_dt a2 /\
      forall j, j < size R ->
        nth_error (a_data a1) (b1 * size R + j) = nth_error (a_data a2) (b2 * size R + j).
  Definition same_row_tree B1 b1 B2 b2 (t1 t2 : tr) : Prop :=
    structure t1 = structure t2 /\ Forall2 (same_row B1 b1 B2 b2) (leaves t1) (leaves t2).
  Definition same_row_dict B1 b1 B2 b2 (d1 d2 : dict tr) : Prop :=
    dkeys d1 = dkeys d2 /\
    forall k t1 t2, dget k d1 = Some t1 -> dget k d2 = Some t2 -> same_row_tree B1 b1 B2 b2 t1 t2.

  (** Element [b1] of the controller [s1] is in the same condition as element [b2] of [s2]. *)
  Record same_rows (b1 : nat) (s1 : st) (b2 : nat) (s2 : st) : Prop := {
    sr_b1 : b1 < size (batch_shape s1);
    sr_b2 : b2 < size (batch_shape s2);
    sr_eps : epsilon s1 = epsilon s2;
    sr_dep : depression_constant s1 = depression_constant s2;
    sr_p : same_row (batch_shape s1) b1 (batch_shape s2) b2 (probabilities s1) (probabilities s2);
    sr_r : same_row (batch_shape s1) b1 (batch_shape s2) b2 (residuals s1) (residuals s2);
    sr_i : same_row (batch_shape s1) b1 (batch_shape s2) b2 (iterations s1) (iterations s2);
    sr_acc : same_row_dict (batch_shape s1) b1 (batch_shape s2) b2 (accumulators s1) (accumulators s2);
    sr_def : same_row_dict (batch_shape s1) b1 (batch_shape s2) b2 (defaults s1) (defaults s2);
    sr_upd : same_row_dict (batch_shape s1) b1 (batch_shape s2) b2 (updates s1) (updates s2)
  }.

  (** Calls that give element [b1] of one process what element [b2] of the other gets. *)
  Definition same_row_call B1 b1 B2 b2 (c1 c2 : call N) : Prop :=
    match c1, c2 with
    | CCache n1 i1, CCache n2 i2 => n1 = n2 /\ same_row_tree B1 b1 B2 b2 i1 i2
    | CIter h1, CIter h2 => same_row B1 b1 B2 b2 h1 h2
    | CReset, CReset => True
    | _, _ => False
    end.

  (** Every accumulator is a tensor (or a container without tensors). *)
  Definition plain (s : st) : Prop :=
    forall k t, dget k (accumulators s) = Some t -> (exists a, t = Leaf a) \/ leaves t = [].

  (** What each call of a history does: [None] if it returned, else the exception raised. *)
  Fixpoint outcomes (s : st) (cs : list (call N)) : list (option exn) :=
    match cs with
    | [] => []
    | c :: cs' =>
        match apply_call s c with
        | Ok s' => None :: outcomes s' cs'
        | Err e => Some e :: outcomes s cs'
        end
    end.

  (** ** Cutting one element out of a process *)

  (** Row [b] of an array whose shape starts with [B]. *)
  Definition row (B : list nat) (b : nat) (a : array N) : array N :=
    let R := skipn (length B) (a_shape a) in
    mkA (a_dt a) (mkT R (firstn (size R) (skipn (b * size R) (a_data a)))).
  Definition row_tree B b (t : tr) : tr := tmap (row B b) t.
  Definition row_dict B b (d : dict tr) : dict tr := map (fun kv => (fst kv, row_tree B b (snd kv))) d.
  (** The controller of element [b] alone: batch shape [()]. *)
  Definition alone (b : nat) (s : st) : st :=
    let B := batch_shape s in
    mkState (epsilon s) (row B b (iterations s)) (row B b (residuals s)) (row B b (probabilities s))
      (row_dict B b (defaults s)) (row_dict B b (accumulators s)) (row_dict B b (updates s))
      (depression_constant s) (error_mode s).
  Definition alone_call (B : list nat) (b : nat) (c : call N) : call N :=
    match c with
    | CCache name item => CCache name (row_tree B b item)
    | CIter h => CIter (row B b h)
    | CReset => CReset
    end.
  (** The tensors of a call extend the batch shape. *)
  Definition fits (B : list nat) (a : array N) : Prop := awf a /\ exists R, a_shape a = B ++ R.
  Definition call_fits (B : list nat) (c : call N) : Prop :=
    match c with
    | CCache _ item => Forall (fits B) (leaves item)
    | CIter h => fits B h
    | CReset => True
    end.
  Definition pending_fits (s : st) : Prop :=
    forall k u, dget k (updates s) = Some u -> Forall (fits (batch_shape s)) (leaves u).
End SliceSpec.
