(** * What a docstring layer feeds to one batch element, in exact arithmetic (no model of execute_act). *)
From Coq Require Import QArith Qcanon.
From Verif Require Import Base PyTree Tensor Num States Wf Spec History ElementSpec LayerSpec SliceSpec.

Section LoopSpec.
  Notation st := (state QcNum).
  Notation tr := (tree (array QcNum)).
  (** The effective halting probabilities of element [i] in the first [n] iterations, if the user
      state starts as [init]. *)
  Definition offers (dep : Qc) (next : tr -> tr) (halt : tr -> array QcNum) (init : tr) (i n : nat) : list Qc :=
    map (fun k => (dep * clamp (nth i (a_data (halt (nth_state next k init))) 0))%Qc) (seq 0 n).
  (** [us] are the numbers supplied for entry [j] of leaf [l] of accumulator [name] in the first [n] iterations. *)
  Definition supplies (next : tr -> tr) (upd : tr -> dict tr) (init : tr) (name : string) (l j n : nat) (us : list Qc) : Prop :=
    map (fun k => update_at (N := QcNum) name l j (upd (nth_state next k init))) (seq 0 n) = map Some us.
End LoopSpec.

(** ** Two runs that treat one element alike *)
Section TwoRuns.
  Context {N : numsys}.
  Notation st := (state N).
  Notation tr := (tree (array N)).
  (** Iteration by iteration, element [b1] of a batch of shape [B1] gets in one loop the updates and
      halting probabilities element [b2] of a batch of shape [B2] gets in the other. *)
  Definition same_inputs (B1 : list nat) (b1 : nat) (next1 : tr -> tr) (upd1 : tr -> dict tr) (halt1 : tr -> array N) (init1 : tr)
    (B2 : list nat) (b2 : nat) (next2 : tr -> tr) (upd2 : tr -> dict tr) (halt2 : tr -> array N) (init2 : tr) : Prop :=
    forall k, same_row B1 b1 B2 b2 (halt1 (nth_state next1 k init1)) (halt2 (nth_state next2 k init2)) /\
      same_row_dict B1 b1 B2 b2 (upd1 (nth_state next1 k init1)) (upd2 (nth_state next2 k init2)).
  (** Element [b1] of [s1] has the results of element [b2] of [s2]: residual, iteration count, accumulators. *)
  Record same_results (b1 : nat) (s1 : st) (b2 : nat) (s2 : st) : Prop := {
    rs_r : nth_error (a_data (residuals s1)) b1 = nth_error (a_data (residuals s2)) b2;
    rs_i : nth_error (a_data (iterations s1)) b1 = nth_error (a_data (iterations s2)) b2;
    rs_keys : forall k, In k (dkeys (accumulators s1)) <-> In k (dkeys (accumulators s2));
    rs_acc : forall k t1 t2, dget k (accumulators s1) = Some t1 -> dget k (accumulators s2) = Some t2 ->
      same_row_tree (batch_shape s1) b1 (batch_shape s2) b2 t1 t2
  }.
End TwoRuns.
