(** * Vocabulary for the layers: the documented loop, and what is asked of user code (no model of
    execute_act or of the contract wrapper). *)
From Verif Require Import Base PyTree Tensor Num States Controller Layers Wf History ElementSpec StateSpec.

Section LayerSpec.
  Context {N : numsys}.
  Notation st := (state N).
  Notation tr := (tree (array N)).
  Notation carry := (@carry N).

  (** The value returned by [run_iteration] (called with controller [c]) is the pair [c', u']. *)
  Definition hands_back (c : st) (r : ret N) (c' : st) (u' : tr) : Prop :=
    match r with
    | RTuple [ISame; IObj u''] => c' = c /\ u' = u''
    | RTuple [ICtrl c''; IObj u''] => c' = c'' /\ u' = u''
    | _ => False
    end.

  (** Every element is halted: its cumulative probability is greater than 1 - epsilon. *)
  Definition all_halted (c : st) : Prop :=
    forall p, In p (a_data (probabilities c)) -> v_ltb N (v_of_scl N (s_one_sub N (epsilon c))) p = true.

  (** The loop of the docstring (layers/act.py:262-268), with the number of iterations:
      [while not controller.is_halted: controller, state = self.run_iteration(controller, state)] *)
  Inductive doc_loop (l : layer N) : st -> tr -> nat -> st -> tr -> Prop :=
  | doc_done c u : all_halted c -> doc_loop l c u 0 c u
  | doc_step c u r c1 u1 n c2 u2 :
      ~ all_halted c ->
      l_run_iteration l c u = Ok r -> hands_back c r c1 u1 ->
      doc_loop l c1 u1 n c2 u2 -> doc_loop l c u (S n) c2 u2.

  (** [n] calls of [run_iteration], each for a controller not completely halted. The controller
      handed over, and the last one, are equal to the previous result, not the same object. *)
  Inductive turns (l : layer N) : st -> tr -> nat -> st -> tr -> Prop :=
  | no_turn c u c' : same_state c c' -> turns l c u 0 c' u
  | one_turn c c0 u r c1 u1 n c2 u2 :
      same_state c c0 -> proper c0 -> ~ all_halted c ->
      l_run_iteration l c0 u = Ok r -> hands_back c0 r c1 u1 ->
      turns l c1 u1 n c2 u2 -> turns l c u (S n) c2 u2.

  (** The dictionaries in the controllers handed out by user code have no key twice (as every
      Python dictionary). *)
  Definition layer_typed (l : layer N) : Prop :=
    (forall init dep c, l_make_controller l init dep = Ok (MCtrl c) -> proper c) /\
    (forall c u r c' u', proper c -> l_run_iteration l c u = Ok r -> hands_back c r c' u' -> proper c').

  (** [run_iteration] gives equal results on equal controllers. *)
  Definition same_item (i i' : item N) : Prop :=
    match i, i' with
    | ISame, ISame => True
    | ICtrl c, ICtrl c' => same_state c c'
    | IObj t, IObj t' => t = t'
    | _, _ => False
    end.
  Definition same_ret (r r' : ret N) : Prop :=
    match r, r' with
    | RTuple is, RTuple is' => Forall2 same_item is is'
    | ROther t, ROther t' => t = t'
    | _, _ => False
    end.
  Definition layer_respects (l : layer N) : Prop :=
    forall c c' u, proper c -> proper c' -> same_state c c' ->
    match l_run_iteration l c u, l_run_iteration l c' u with
    | Ok r, Ok r' => same_ret r r'
    | Err _, Err _ => True
    | _, _ => False
    end.

  (** What the contract asks of a controller between two iterations: at least one accumulator, and
      no update waiting to be committed. *)
  Definition clean (c : st) : Prop := accumulators c <> [] /\ updates c <> [] /\ idle c.
  (** What repeated [run_iteration] leads to. *)
  Inductive reaches (l : layer N) : st -> tr -> st -> tr -> Prop :=
  | reach_here c u : reaches l c u c u
  | reach_next c u r c1 u1 c2 u2 :
      l_run_iteration l c u = Ok r -> hands_back c r c1 u1 ->
      reaches l c1 u1 c2 u2 -> reaches l c u c2 u2.
  (** From [c], [u] on, the layer fulfils the contract: every controller is clean, and
      [run_iteration] returns a new controller object and a user state. *)
  Definition keeps_contract (l : layer N) (c : st) (u : tr) : Prop :=
    forall c1 u1, reaches l c u c1 u1 ->
    clean c1 /\ forall r, l_run_iteration l c1 u1 = Ok r -> exists c' u', r = RTuple [ICtrl c'; IObj u'].
  (** [run_iteration] keeps structure, shapes and dtypes on the first call. *)
  Definition first_call_keeps_types (l : layer N) (c : st) (u : tr) : Prop :=
    exists r c1 u1, l_run_iteration l c u = Ok r /\ hands_back c r c1 u1 /\
      abstract_ctrl c1 = abstract_ctrl c /\ abstract_user u1 = abstract_user u.

  (** ** The while loop itself, without a bound on the number of steps: [n] is the number of calls of the body *)
  Inductive while_runs (body : carry -> res carry) : carry -> nat -> res carry -> Prop :=
  | wr_rebuild x e : rebuild x = Err e -> while_runs body x 0 (Err e)
  | wr_done x y : rebuild x = Ok y -> is_act_not_complete y = false -> while_runs body x 0 (Ok y)
  | wr_raise x y e : rebuild x = Ok y -> is_act_not_complete y = true -> body y = Err e -> while_runs body x 1 (Err e)
  | wr_step x y z n r : rebuild x = Ok y -> is_act_not_complete y = true -> body y = Ok z ->
      while_runs body z n r -> while_runs body x (S n) r.

  (** ** Layers written as in the docstring (layers/act.py:135-172) *)

  (** Calls made one after the other; the first exception ends them. *)
  Fixpoint strictly (c : st) (cs : list (call N)) : res st :=
    match cs with
    | [] => Ok c
    | x :: cs' => match apply_call c x with Ok c' => strictly c' cs' | Err e => Err e end
    end.
  (** Caches the updates computed from the user state, then commits with the halting
      probabilities computed from it, and returns the new controller and user state. *)
  Definition simple_calls (upd : tr -> dict tr) (halt : tr -> array N) (u : tr) : list (call N) :=
    map (fun kv => CCache (fst kv) (snd kv)) (upd u) ++ [CIter (halt u)].
  Definition simple_layer (c0 : st) (next : tr -> tr) (upd : tr -> dict tr) (halt : tr -> array N)
    (lazy : st -> tr -> res unit) : layer N :=
    mkLayer (fun _ _ => Ok (MCtrl c0))
      (fun c u => match strictly c (simple_calls upd halt u) with
                  | Ok c' => Ok (RTuple [ICtrl c'; IObj (next u)])
                  | Err e => Err e
                  end) lazy.
  (** Updates for exactly the accumulators of [c], addable to them, and halting probabilities of
      the batch shape and core dtype. *)
  Definition step_fits (c : st) (upds : dict tr) (h : array N) : Prop :=
    NoDup (dkeys upds) /\ (forall k, In k (dkeys upds) <-> In k (dkeys (accumulators c))) /\
    (forall k t v, dget k (accumulators c) = Some t -> dget k upds = Some v ->
       is_none v = false /\ Forall awf (leaves v) /\
       Forall2 (can_add (a_dt (probabilities c))) (leaves t) (leaves v)) /\
    awf h /\ a_shape h = batch_shape c /\ weak_float (a_dt h) = a_dt (probabilities c).
  (** the user state after [n] iterations *)
  Fixpoint nth_state (next : tr -> tr) (n : nat) (u : tr) : tr :=
    match n with 0 => u | S n' => nth_state next n' (next u) end.
  (** the calls of the first [n] iterations of a docstring layer *)
  Fixpoint loop_calls (next : tr -> tr) (upd : tr -> dict tr) (halt : tr -> array N) (n : nat) (u : tr) : list (call N) :=
    match n with 0 => [] | S n' => simple_calls upd halt u ++ loop_calls next upd halt n' (next u) end.
End LayerSpec.
