(** * Accumulators do not interfere (C70). Vocabulary: SubsetSpec.v. *)
From Coq Require Import QArith Qcanon.
From Verif Require Import Base PyTree Tensor Num Utils States Controller Builder Wf Spec History ElementSpec BuilderSpec SubsetSpec.
From Verif Require Import BaseFacts ControllerFacts IterateFacts HistoryFacts QcFacts BuilderFacts Samples SubsetFacts PropsController.
Close Scope Qc_scope. Close Scope Q_scope. Open Scope string_scope. Open Scope list_scope. Open Scope nat_scope.

(** ** C70 *)
(** What a call does to the accumulators in [P] does not depend on the others. *)
Theorem C70_one_call {N} (P : string -> bool) (s s' : state N) c :
  apply_call s c = Ok s' ->
  (concerns P c = true -> apply_call (only P s) c = Ok (only P s')) /\
  (concerns P c = false -> only P s' = only P s).
Proof. intros H. apply (call_keep P) in H. destruct (concerns P c); split; congruence || auto. Qed.
Print Assumptions C70_one_call.
(** Any history: leaving out accumulators and their updates changes nothing for the rest. *)
Theorem C70_accumulators_do_not_interfere {N} (P : string -> bool) (s : state N) cs :
  all_return (only P s) (only_calls P (returned s cs)) = Some (only P (run s cs)).
Proof. exact (run_keep P s cs). Qed.
Print Assumptions C70_accumulators_do_not_interfere.
(** A call returns iff it returns for each accumulator on its own (and without accumulators). *)
Theorem C70_parts_decide {N} (s : state N) c : wf s -> (forall name item, c <> CCache name item) ->
  (exists s', apply_call s c = Ok s') <->
  (exists s', apply_call (only nothing s) c = Ok s') /\
  (forall k, In k (dkeys (accumulators s)) -> exists s', apply_call (only (just k) s) c = Ok s').
Proof.
  intros W H. destruct c as [name item|h|]; [now destruct (H name item)|exact (iterate_parts s h W)|exact (reset_parts s W)].
Qed.
Print Assumptions C70_parts_decide.
(** Halting does not depend on accumulators or updates at all. *)
Theorem C70_halting_ignores_updates {N} (s t : state N) cs1 cs2 :
  epsilon s = epsilon t -> depression_constant s = depression_constant t -> error_mode s = error_mode t ->
  probabilities s = probabilities t -> residuals s = residuals t -> iterations s = iterations t ->
  only_calls nothing (returned s cs1) = only_calls nothing (returned t cs2) ->
  probabilities (run s cs1) = probabilities (run t cs2) /\ residuals (run s cs1) = residuals (run t cs2) /\
  iterations (run s cs1) = iterations (run t cs2) /\ halted_batches (run s cs1) = halted_batches (run t cs2).
Proof.
  intros E1 E2 E3 E4 E5 E6 E. assert (X := run_keep nothing s cs1). assert (Y := run_keep nothing t cs2).
  assert (K : forall V (d : dict V), keep nothing d = []) by (intros V d; unfold keep; induction d; auto).
  assert (O : only nothing s = only nothing t) by (unfold only; rewrite !K; congruence).
  rewrite E, O, Y in X. injection X as X1 X2 X3 X4 X5 X6. unfold halted_batches, halt_threshold.
  rewrite X1, X2, X3, X4. auto.
Qed.
Print Assumptions C70_halting_ignores_updates.

Example C70_case : wf ctl2 /\ dkeys (accumulators ctl2) = ["x"; "y"] /\ dkeys (accumulators (only (just "y") ctl2)) = ["y"] /\
  length (returned ctl2 calls2) = 9 /\ length (only_calls (just "y") (returned ctl2 calls2)) = 6 /\
  length (only_calls nothing (returned ctl2 calls2)) = 3 /\
  map this (a_data (probabilities (run (only (just "y") ctl2) (only_calls (just "y") calls2)))) =
  map this (a_data (probabilities (run ctl2 calls2))).
Proof. split; [exact (proj1 ctl2_ok)|]. repeat split; vm. Qed.
Lemma returned_le {N} (s : state N) cs : length (returned s cs) <= length cs.
Proof. revert s. induction cs as [|c cs IH]; intros s; cbn [returned length]; [lia|]. destruct (apply_call s c) as [s'|]; cbn [length]; [specialize (IH s')|specialize (IH s)]; lia. Qed.
Lemma returned_whole {N} (s : state N) cs : length (returned s cs) = length cs -> returned s cs = cs.
Proof.
  revert s. induction cs as [|c cs IH]; intros s H; cbn [returned length] in *; [reflexivity|].
  destruct (apply_call s c) as [s'|]; cbn [length] in H; [f_equal; apply IH; lia|]. assert (X := returned_le s cs). lia.
Qed.
(** different updates, same halting probabilities *)
Example C70_halting_case :
  let cs1 := [CCache "x" (u_x 1 2 3 4); CIter (hp (q 1 2) (q 1 4))] in
  let cs2 := [CCache "x" (u_x 5 6 7 8); CIter (hp (q 1 2) (q 1 4))] in
  returned ctl1 cs1 = cs1 /\ returned ctl1 cs2 = cs2 /\ only_calls nothing cs1 = only_calls nothing cs2.
Proof. intros cs1 cs2. split; [apply returned_whole; vm|]. split; [apply returned_whole; vm|reflexivity]. Qed.
