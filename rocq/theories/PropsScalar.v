(** * C64: a batched controller is an array of scalar programs, for every arithmetic *)
From Coq Require Import QArith Qcanon.
From Verif Require Import Base PyTree Tensor Num Utils States Controller Builder Wf Spec History ElementSpec ScalarSpec BuilderSpec.
From Verif Require Import BaseFacts ControllerFacts IterateFacts HistoryFacts AgreeFacts GravesFacts ExactFacts ScalarFacts Samples PropsController.
Close Scope Qc_scope. Close Scope Q_scope. Open Scope string_scope. Open Scope list_scope. Open Scope nat_scope.

(** ** C64: resets, NaN and raising calls included; the calls that raised are not in the program. *)
Theorem C64_every_element_runs_the_scalar_program {N} (s0 : state N) cs :
  wf s0 -> fresh s0 -> Forall call_wf cs ->
  let s := run s0 cs in
  let thr := v_of_scl N (s_one_sub N (epsilon s0)) in
  let dep := v_of_scl N (depression_constant s0) in
  (forall i p r n, element s i p r n ->
     mkStats p r n = stats_run thr dep stats0 (stats_program i (returned s0 cs))) /\
  (forall k t d, dget k (accumulators s) = Some t -> dget k (defaults s0) = Some d ->
   forall l a dl, nth_error (leaves t) l = Some a -> nth_error (leaves d) l = Some dl ->
   forall R, a_shape a = batch_shape s0 ++ R ->
   forall j av dv, a.[j] = Some av -> dl.[j] = Some dv ->
   exists prog, value_program (j / size R) k l j (returned s0 cs) prog /\
     av = value_run thr dep dv stats0 dv prog).
Proof.
  intros W F C s thr dep. pose proof (run_follows s0 cs W F C) as T. split.
  - intros i p r n (Hp & Hr & Hn). rewrite (fo_p _ _ _ T i p Hp), (fo_r _ _ _ T i r Hr), (fo_i _ _ _ T i n Hn).
    unfold thr, dep, threshold. destruct (stats_run _ _ _ _); reflexivity.
  - exact (fo_acc _ _ _ T).
Qed.
Print Assumptions C64_every_element_runs_the_scalar_program.

(** The halting test a user sees is the one of the scalar program. *)
Theorem C64_halted_batches {N} (s0 : state N) cs i :
  wf s0 -> fresh s0 -> Forall call_wf cs -> i < size (batch_shape s0) ->
  halted (run s0 cs) i =
  Some (is_over (v_of_scl N (s_one_sub N (epsilon s0)))
          (stats_run (v_of_scl N (s_one_sub N (epsilon s0))) (v_of_scl N (depression_constant s0)) stats0
             (stats_program i (returned s0 cs)))).
Proof.
  intros W F C Hi. pose proof (run_follows s0 cs W F C) as T.
  pose proof (sf_p _ _ (fo_frame _ _ _ T)) as E. injection E as E _.
  assert (Hp : exists p, (probabilities (run s0 cs)).[i] = Some p).
  { apply nth_error_lt. rewrite (wf_batch_len _ (fo_wf _ _ _ T)). unfold batch_shape in *. now rewrite E. }
  destruct Hp as [p Hp]. unfold halted. rewrite (halted_get _ _ _ Hp). f_equal.
  rewrite (fo_p _ _ _ T i p Hp). unfold halted_at, is_over, threshold.
  now rewrite (sf_eps _ _ (fo_frame _ _ _ T)).
Qed.
Print Assumptions C64_halted_batches.

(** [value_program] leaves no choice. *)
Lemma value_program_unique {N} i k l j (cs : list (call N)) prog1 prog2 :
  value_program i k l j cs prog1 -> value_program i k l j cs prog2 -> prog1 = prog2.
Proof.
  unfold value_program. intros -> H. revert prog2 H.
  induction prog1 as [|x xs IH]; intros [|y ys]; cbn; try discriminate; auto.
  intros [= A B]. f_equal; [|now apply IH]. destruct x as [[? ?]|], y as [[? ?]|]; cbn in A; congruence.
Qed.

(** Two elements, an accumulator of shape (2, 2), a reset in the middle. *)
Example C64_case : wf ctl1 /\ fresh ctl1 /\ Forall call_wf calls1 /\
  map (option_map this) (stats_program 0 (returned ctl1 calls1)) = [Some (1 # 2); Some (7 # 1); None; Some (1 # 3)]%Q /\
  map (option_map this) (stats_program 1 (returned ctl1 calls1)) = [Some (1 # 4); Some (1 # 4); None; Some (9 # 10)]%Q /\
  map this (a_data (probabilities (run ctl1 calls1))) = [1 # 3; 1 # 1]%Q.
Proof.
  destruct ctl1_ok as [W F]. split; [exact W|]. split; [exact F|]. split; [exact calls1_wf|].
  repeat split; vm.
Qed.
