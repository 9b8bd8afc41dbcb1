(** * Independent specification: Graves' adaptive computation time for one batch element.

    Plain lists of rational numbers; nothing here mentions controllers or tensors. *)
From Coq Require Import QArith Qcanon.
From Verif Require Import Base Num.
Open Scope Qc_scope.

Fixpoint total (l : list Qc) : Qc := match l with [] => 0 | x :: l' => x + total l' end.
(** sum of products *)
Fixpoint dot (ws us : list Qc) : Qc :=
  match ws, us with
  | w :: ws', u :: us' => w * u + dot ws' us'
  | _, _ => 0
  end.

(** A halting probability given by the user is clamped to [0,1]. *)
Definition clamp (h : Qc) : Qc :=
  if Qclt_le_dec h 0 then 0 else if Qclt_le_dec 1 h then 1 else h.

(** The index (from 0) of the first step at which the running total exceeds [thr]. *)
Fixpoint halting_step (thr sofar : Qc) (hs : list Qc) : option nat :=
  match hs with
  | [] => None
  | h :: hs' =>
      if Qclt_le_dec thr (sofar + h) then Some 0%nat
      else option_map S (halting_step thr (sofar + h) hs')
  end.
Definition act_halted (thr : Qc) (hs : list Qc) : bool :=
  match halting_step thr 0 hs with Some _ => true | None => false end.

(** Weights of the updates: the halting probabilities before the halting step, the remainder at
    the halting step, zero afterwards. *)
Definition act_weights (thr : Qc) (hs : list Qc) : list Qc :=
  match halting_step thr 0 hs with
  | None => hs
  | Some n => firstn n hs ++ (1 - total (firstn n hs)) :: repeat 0 (length hs - S n)
  end.
Definition act_probability (thr : Qc) (hs : list Qc) : Qc := total (act_weights thr hs).
Definition act_residual (thr : Qc) (hs : list Qc) : Qc :=
  match halting_step thr 0 hs with
  | None => 0
  | Some n => 1 - total (firstn n hs)
  end.
Definition act_iterations (thr : Qc) (hs : list Qc) : nat :=
  match halting_step thr 0 hs with None => length hs | Some n => S n end.

Definition Qc_of_nat (n : nat) : Qc := Q2Qc (inject_Z (Z.of_nat n)).
