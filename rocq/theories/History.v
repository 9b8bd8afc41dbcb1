(** * Call histories of a controller.

    A call that raises leaves the user with the controller they had. *)
From Coq Require Import QArith Qcanon.
From Verif Require Import Base PyTree Tensor Num States Controller Wf Spec.

Section History.
  Context {N : numsys}.
  Notation st := (state N).
  Notation tr := (tree (array N)).

  Inductive call :=
  | CCache (name : string) (item : tr)
  | CIter (h : array N)
  | CReset.

  Definition apply_call (s : st) (c : call) : res st :=
    match c with
    | CCache name item => cache_update s name item
    | CIter h => iterate_act s h
    | CReset => reset_batches s
    end.
  Definition after (s : st) (c : call) : st :=
    match apply_call s c with Ok s' => s' | Err _ => s end.
  Definition run (s : st) (cs : list call) : st := fold_left after cs s.

  (** The calls that returned. *)
  Fixpoint returned (s : st) (cs : list call) : list call :=
    match cs with
    | [] => []
    | c :: cs' =>
        match apply_call s c with
        | Ok s' => c :: returned s' cs'
        | Err _ => returned s cs'
        end
    end.

  (** The arrays handed over are genuine arrays. *)
  Definition call_wf (c : call) : Prop :=
    match c with
    | CCache _ item => Forall awf (leaves item)
    | CIter h => awf h
    | CReset => True
    end.

  (** What a user who only looks at the calls that returned knows about batch element [i]: the
      updates cached for the iteration being prepared, and, for each iteration committed since
      the element was last restarted, the halting value it got and the updates committed. *)
  Record log := mkLog { pending : dict tr; past : list (val N * dict tr) }.
  Definition log_step (restarts : list (val N) -> bool) (i : nat) (g : log) (c : call) : log :=
    match c with
    | CCache name item => mkLog ((name, item) :: pending g) (past g)
    | CIter h =>
        match nth_error (a_data h) i with
        | Some v => mkLog [] (past g ++ [(v, pending g)])
        | None => mkLog [] (past g)
        end
    | CReset => if restarts (map fst (past g)) then mkLog (pending g) [] else g
    end.
  Definition log_of (restarts : list (val N) -> bool) (i : nat) (cs : list call) : log :=
    fold_left (log_step restarts i) cs (mkLog [] []).

  (** Element [j] of leaf [l] of the update for accumulator [k]. *)
  Definition update_at (k : string) (l j : nat) (upd : dict tr) : option (val N) :=
    match dget k upd with
    | None => None
    | Some t => match nth_error (leaves t) l with
                | None => None
                | Some a => nth_error (a_data a) j
                end
    end.

  (** A controller as a builder hands it out. *)
  Definition fresh (s : st) : Prop :=
    Forall (eq (v_zero N)) (a_data (probabilities s)) /\
    Forall (eq (v_zero N)) (a_data (residuals s)) /\
    Forall (eq (v_zero N)) (a_data (iterations s)) /\
    (forall k, dget k (accumulators s) = dget k (defaults s)) /\
    (forall k u, dget k (updates s) = Some u -> u = tnone).
End History.
Arguments call N : clear implicits.
Arguments log N : clear implicits.

(** ** The exact instance: effective halting probabilities of a history *)
Definition effective (s : state QcNum) (vs : list Qc) : list Qc :=
  map (fun v => (depression_constant s * clamp v)%Qc) vs.
Definition thr (s : state QcNum) : Qc := (1 - epsilon s)%Qc.
(** [reset_batches] restarts an element iff ACT has halted it. *)
Definition element_log (s0 : state QcNum) (i : nat) (cs : list (call QcNum)) : log QcNum :=
  log_of (fun vs : list (val QcNum) => act_halted (thr s0) (effective s0 vs)) i (returned s0 cs).
Definition element_hs (s0 : state QcNum) (i : nat) (cs : list (call QcNum)) : list Qc :=
  effective s0 (map fst (past (element_log s0 i cs))).
