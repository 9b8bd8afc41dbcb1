(** * Batching is transparent (C63). Vocabulary: SliceSpec.v. *)
From Coq Require Import QArith Qcanon.
From Verif Require Import Base PyTree Tensor Num Utils States Controller Builder Wf Spec History ElementSpec BuilderSpec SliceSpec.
From Verif Require Import BaseFacts ControllerFacts IterateFacts HistoryFacts QcFacts BuilderFacts Samples SliceFacts
  PropsController.
Close Scope Qc_scope. Close Scope Q_scope. Open Scope string_scope. Open Scope list_scope. Open Scope nat_scope.

(** ** C63 *)
(** one call: element [b1] of one controller and [b2] of another, of any batch shapes *)
Theorem C63_one_call {N} b1 (s1 : state N) b2 (s2 : state N) c1 c2 :
  wf s1 -> wf s2 -> wf_pending s1 -> wf_pending s2 -> call_wf c1 -> call_wf c2 ->
  same_rows b1 s1 b2 s2 -> same_row_call (batch_shape s1) b1 (batch_shape s2) b2 c1 c2 ->
  (c1 = CReset -> (batch_shape s1 = [] <-> batch_shape s2 = []) \/ plain s1) ->
  match apply_call s1 c1, apply_call s2 c2 with
  | Ok s1', Ok s2' => same_rows b1 s1' b2 s2'
  | Err e1, Err e2 => e1 = e2
  | _, _ => False
  end.
Proof.
  intros W1 W2 P1 P2 K1 K2 H Hc Hr. pose proof (call_rows b1 s1 b2 s2 c1 c2 W1 W2 P1 P2 K1 K2 H Hc Hr) as X.
  destruct (apply_call s1 c1), (apply_call s2 c2); auto. apply X.
Qed.
Print Assumptions C63_one_call.
(** any history *)
Theorem C63_batching_is_transparent {N} b1 (s1 : state N) b2 (s2 : state N) cs1 cs2 :
  wf s1 -> wf s2 -> wf_pending s1 -> wf_pending s2 -> Forall call_wf cs1 -> Forall call_wf cs2 ->
  same_rows b1 s1 b2 s2 -> Forall2 (same_row_call (batch_shape s1) b1 (batch_shape s2) b2) cs1 cs2 ->
  (In CReset cs1 -> (batch_shape s1 = [] <-> batch_shape s2 = []) \/ plain s1) ->
  outcomes s1 cs1 = outcomes s2 cs2 /\ same_rows b1 (run s1 cs1) b2 (run s2 cs2).
Proof.
  intros W1 W2 P1 P2 K1 K2 H Hc Hr. apply and_comm.
  exact (run_rows b1 s1 b2 s2 cs1 cs2 W1 W2 P1 P2 K1 K2 H Hc Hr).
Qed.
Print Assumptions C63_batching_is_transparent.
(** cutting out element [b] and running it on its own, with batch shape [()], is the same as running the batch *)
Theorem C63_element_alone {N} b (s : state N) cs :
  wf s -> pending_fits s -> b < size (batch_shape s) -> Forall (call_fits (batch_shape s)) cs ->
  (In CReset cs -> plain s) ->
  outcomes s cs = outcomes (alone b s) (map (alone_call (batch_shape s) b) cs) /\
  same_rows b (run s cs) 0 (run (alone b s) (map (alone_call (batch_shape s) b) cs)).
Proof. intros W P Hb F Hr. apply and_comm. exact (run_alone b s cs W P Hb F Hr). Qed.
Print Assumptions C63_element_alone.

Example C63_case : wf ctl1 /\ pending_fits ctl1 /\ 1 < size (batch_shape ctl1) /\
  Forall (call_fits (batch_shape ctl1)) calls1 /\ plain ctl1 /\ same_rows 1 ctl1 0 (alone 1 ctl1) /\
  batch_shape (alone 1 ctl1) = [] /\
  map (option_map (fun _ => tt)) (outcomes ctl1 calls1) = [None; Some tt; None; None; None; None; None; None] /\
  map this (a_data (probabilities (run ctl1 calls1))) = [1 # 3; 1 # 1]%Q /\
  map this (a_data (probabilities (run (alone 1 ctl1) (map (alone_call [2] 1) calls1)))) = [1 # 1]%Q /\
  map this (a_data (probabilities (run (alone 0 ctl1) (map (alone_call [2] 0) calls1)))) = [1 # 3]%Q.
Proof.
  destruct ctl1_ok as [W F].
  assert (P : pending_fits ctl1).
  { intros k u Hu. destruct F as (_ & _ & _ & _ & F). rewrite (F k u Hu). constructor. }
  assert (Hb : 1 < size (batch_shape ctl1)) by (change (batch_shape ctl1) with [2]; cbn; lia).
  split; [exact W|]. split; [exact P|]. split; [exact Hb|]. split.
  { change (batch_shape ctl1) with [2]. repeat (constructor; [cbn [call_fits leaves u_x]|]); try exact I; try (constructor);
    repeat constructor; try (exists [2]; reflexivity); try (exists []; reflexivity). }
  split.
  { intros k t Ht. left. change (accumulators ctl1) with [("x", t_x)] in Ht. cbn [dget] in Ht.
    destruct (String.eqb k "x"); [|discriminate]. inversion Ht. unfold t_x. eauto. }
  split; [exact (alone_same 1 ctl1 W P Hb)|].
  repeat split; vm_compute; reflexivity.
Qed.
(** the proviso on reset cannot be dropped: with a pytree accumulator the batch of two raises, the element alone does not *)
Example C63_proviso_needed : wf ctl2 /\ pending_fits ctl2 /\ ~ plain ctl2 /\
  is_ok (reset_batches ctl2) = false /\ is_ok (reset_batches (alone 0 ctl2)) = true.
Proof.
  destruct ctl2_ok as [W F]. split; [exact W|]. split.
  { intros k u Hu. destruct F as (_ & _ & _ & _ & F). rewrite (F k u Hu). constructor. }
  split.
  { intros H. destruct (H "y" t_y) as [[a E]|E]; [reflexivity|discriminate|discriminate]. }
  split; vm_compute; reflexivity.
Qed.
