(** * What execute_act computes (C71), and that batching is transparent to it (C72).
    Vocabulary: Spec.v, LayerSpec.v, LoopSpec.v, SliceSpec.v. *)
From Coq Require Import QArith Qcanon.
From Verif Require Import Base PyTree Tensor Num Utils States Controller Builder Layers Wf Spec History ElementSpec BuilderSpec StateSpec LayerSpec SliceSpec LoopSpec.
From Verif Require Import BaseFacts PyTreeFacts TensorFacts ControllerFacts IterateFacts ResetFacts HistoryFacts BuilderFacts.
From Verif Require Import QcFacts SpecFacts GravesFacts ExactFacts ExactFacts2 StateFacts LayerFacts LayerFacts2 LayerFacts3 LayerFacts4
  SliceFacts LoopFacts Samples PropsController PropsLayers.
Close Scope Qc_scope. Close Scope Q_scope. Open Scope string_scope. Open Scope list_scope. Open Scope nat_scope.

(** ** C71 *)
(** Any number system: the result of execute_act for a docstring layer is that of the calls of its
    first [n] iterations, none of which raised. *)
Theorem C71_execute_act_is_a_history {N} (c0 : state N) next upd halt lazy init dep bound check c' u' :
  wf c0 -> execute_act (simple_layer c0 next upd halt lazy) init dep bound check = Ok (c', u') ->
  exists n, u' = nth_state next n init /\ (Z.of_nat n <= Z.max 0 bound)%Z /\
    same_state c' (run c0 (loop_calls next upd halt n init)) /\
    returned c0 (loop_calls next upd halt n init) = loop_calls next upd halt n init /\
    (all_halted c' \/ Z.of_nat n = Z.max 0 bound) /\
    forall m, m < n -> ~ all_halted (run c0 (loop_calls next upd halt m init)).
Proof. intros W. apply execute_history. now apply wf_proper. Qed.
Print Assumptions C71_execute_act_is_a_history.
(** It does return, whatever the bound, when the updates fit the accumulators. *)
Theorem C71_execute_act_returns {N} (c0 : state N) next upd halt lazy init dep bound check :
  wf c0 -> fresh c0 -> accumulators c0 <> [] -> error_mode c0 = None -> lazy c0 init = Ok tt ->
  (forall k, step_fits c0 (upd (nth_state next k init)) (halt (nth_state next k init))) ->
  abstract_user (next init) = abstract_user init ->
  exists c' u', execute_act (simple_layer c0 next upd halt lazy) init dep bound check = Ok (c', u').
Proof.
  intros W F Ne Em Hl Fi Au. apply simple_returns; auto using fresh_wf_pending. destruct F as (_ & _ & _ & _ & F). exact F.
Qed.
Print Assumptions C71_execute_act_returns.
(** Exact arithmetic: it computes Graves' adaptive computation time for every element, stopping at the
    first iteration after which all elements have halted, or at the bound. *)
Theorem C71_execute_act_computes_act (c0 : st) next upd halt lazy init dep bound check c' u' :
  (0 < epsilon c0)%Qc -> (epsilon c0 <= 1)%Qc -> (0 <= depression_constant c0)%Qc -> wf c0 -> fresh c0 ->
  (forall k, step_fits c0 (upd (nth_state next k init)) (halt (nth_state next k init))) ->
  execute_act (simple_layer c0 next upd halt lazy) init dep bound check = Ok (c', u') ->
  let threshold := (1 - epsilon c0)%Qc in
  let hs := offers (depression_constant c0) next halt init in
  exists n, u' = nth_state next n init /\ (Z.of_nat n <= Z.max 0 bound)%Z /\
    (forall m, m < n -> exists i, i < size (batch_shape c0) /\ act_halted threshold (hs i m) = false) /\
    (Z.of_nat n = Z.max 0 bound \/ forall i, i < size (batch_shape c0) -> act_halted threshold (hs i n) = true) /\
    forall i, i < size (batch_shape c0) ->
      (probabilities c').[i] = Some (act_probability threshold (hs i n)) /\
      (residuals c').[i] = Some (act_residual threshold (hs i n)) /\
      (iterations c').[i] = Some (Qc_of_nat (act_iterations threshold (hs i n))) /\
      forall k t d l a dl R j av dv,
        dget k (accumulators c') = Some t -> dget k (defaults c0) = Some d ->
        nth_error (leaves t) l = Some a -> nth_error (leaves d) l = Some dl ->
        a_shape a = batch_shape c0 ++ R -> j / size R = i -> a.[j] = Some av -> dl.[j] = Some dv ->
        exists us, supplies next upd init k l j n us /\ av = (dv + dot (act_weights threshold (hs i n)) us)%Qc.
Proof.
  intros He He1 Hd W F Fi H threshold hs.
  destruct (execute_history _ _ _ _ _ _ _ _ _ _ _ (wf_proper _ W) H) as (n & U & L & S & R & C & M). exists n.
  split; [exact U|]. split; [exact L|]. split; [|split].
  - intros m Hm. specialize (M m Hm). rewrite (loop_all_halted c0 next upd halt init W F Fi He He1 Hd m) in M.
    destruct (forallb (fun i => act_halted threshold (hs i m)) (seq 0 (size (batch_shape c0)))) eqn:E.
    + exfalso. apply M. intros i Hi. rewrite forallb_forall in E. apply E, in_seq. lia.
    + destruct (existsb (fun i => negb (act_halted threshold (hs i m))) (seq 0 (size (batch_shape c0)))) eqn:E'.
      * apply existsb_exists in E' as (i & Hi & Ei). apply in_seq in Hi. exists i. split; [lia|]. now destruct (act_halted threshold (hs i m)).
      * exfalso. assert (X : forall l : list nat, forallb (fun i => act_halted threshold (hs i m)) l = negb (existsb (fun i => negb (act_halted threshold (hs i m))) l)).
        { induction l as [|x l IH]; [reflexivity|]. cbn. rewrite IH. now destruct (act_halted threshold (hs x m)). }
        rewrite X, E' in E. discriminate.
  - destruct C as [C|C]; [right|now left]. apply (loop_all_halted c0 next upd halt init W F Fi He He1 Hd n).
    exact (all_halted_same _ _ S C).
  - intros i Hi. assert (K := loop_wf c0 next upd halt init Fi n).
    destruct (C05_every_element_is_covered c0 _ W F K i Hi) as ((p & Hp) & (r & Hr) & (k & Hk) & _).
    destruct (C05_controller_computes_graves_act c0 _ He He1 Hd W F K i) as (A1 & A2 & A3 & _ & A5).
    assert (E := loop_hs c0 next upd halt init Fi n i Hi R).
    rewrite (ss_p _ _ S), (ss_r _ _ S), (ss_i _ _ S).
    split; [etransitivity; [exact Hp|]; f_equal; rewrite (A1 p Hp), E; reflexivity|].
    split; [etransitivity; [exact Hr|]; f_equal; rewrite (A2 r Hr), E; reflexivity|].
    split; [etransitivity; [exact Hk|]; f_equal; rewrite (A3 k Hk), E; reflexivity|].
    intros x t d l a dl Rr j av dv H1. rewrite (ss_acc _ _ S) in H1. intros H2 H3 H4 H5 H6 H7 H8.
    destruct (A5 x t d l a dl Rr j av dv H1 H2 H3 H4 H5 H6 H7 H8) as (us & Hus & Eq).
    exists us. split; [exact (loop_supplies c0 next upd halt init Fi n i x l j us Hi R Hus)|]. rewrite Eq, E. reflexivity.
Qed.
Print Assumptions C71_execute_act_computes_act.
Definition stats_of (r : res (st * tr)) : list (list Q) :=
  match r with
  | Ok (c, _) => [map this (a_data (probabilities c)); map this (a_data (residuals c)); map this (a_data (iterations c))]
  | Err _ => []
  end.
Example C71_case : (0 < epsilon ctl0)%Qc /\ (epsilon ctl0 <= 1)%Qc /\ (0 <= depression_constant ctl0)%Qc /\ wf ctl0 /\ fresh ctl0 /\
  accumulators ctl0 <> [] /\ error_mode ctl0 = None /\
  (forall k, step_fits ctl0 (updU (nth_state nextU k initU)) (haltU (nth_state nextU k initU))) /\
  abstract_user (nextU initU) = abstract_user initU /\ size (batch_shape ctl0) = 2 /\
  stats_of (execute_act layU initU (q 1 1) 10 true) = [[1; 1]; [1#2; 1#4]; [2; 4]]%Q /\
  stats_of (execute_act layU initU (q 1 1) 3 true) = [[1; 3#4]; [1#2; 0]; [2; 3]]%Q.
Proof.
  split; [cq|]. split; [cq|]. split; [cq|]. split; [exact ctl0_wf|]. split; [exact ctl0_fresh|]. split; [exact layU_accs|].
  split; [reflexivity|]. split; [exact layU_fits|]. repeat split; vm.
Qed.

(** ** C72 *)
Lemma loop_frozen (c : st) next upd halt init b : (0 < epsilon c)%Qc -> (0 <= depression_constant c)%Qc -> wf c -> fresh c ->
  (forall k, step_fits c (upd (nth_state next k init)) (halt (nth_state next k init))) ->
  forall n m, halted (run c (loop_calls next upd halt n init)) b = Some true ->
  same_element b (run c (loop_calls next upd halt n init)) (run c (loop_calls next upd halt (n + m) init)).
Proof.
  intros He' Hd' W F Fi n m Hh. rewrite loop_calls_split, run_app.
  assert (K : forall m, Forall call_wf (loop_calls next upd halt m init)) by (intros k; eapply calls_of_wf; eauto).
  destruct (run_wf c _ W (fresh_wf_pending _ F) (K n)) as [W' P']. assert (Fr := run_frame c _ W (fresh_wf_pending _ F) (K n)).
  apply C03_halted_elements_frozen_forever; auto.
  - specialize (K (n + m)). rewrite loop_calls_split in K. now apply Forall_app in K.
  - apply loop_no_reset.
  - now rewrite (sf_eps _ _ Fr).
  - now rewrite (sf_dep _ _ Fr).
Qed.
(** Element [b1] of one batch and [b2] of another, of any shapes, with any neighbours, that get the same
    updates and halting probabilities. With the same max_iterations the element has the same results,
    even if the neighbours make one of the loops go on for longer. *)
Theorem C72_execution_is_batching_transparent (c1 : st) next1 upd1 halt1 lazy1 init1 dep1 check1 c1' u1'
  (c2 : st) next2 upd2 halt2 lazy2 init2 dep2 check2 c2' u2' b1 b2 bound :
  (0 < epsilon c1)%Qc -> (0 <= depression_constant c1)%Qc ->
  wf c1 -> fresh c1 -> wf c2 -> fresh c2 ->
  (forall k, step_fits c1 (upd1 (nth_state next1 k init1)) (halt1 (nth_state next1 k init1))) ->
  (forall k, step_fits c2 (upd2 (nth_state next2 k init2)) (halt2 (nth_state next2 k init2))) ->
  same_rows b1 c1 b2 c2 ->
  same_inputs (batch_shape c1) b1 next1 upd1 halt1 init1 (batch_shape c2) b2 next2 upd2 halt2 init2 ->
  execute_act (simple_layer c1 next1 upd1 halt1 lazy1) init1 dep1 bound check1 = Ok (c1', u1') ->
  execute_act (simple_layer c2 next2 upd2 halt2 lazy2) init2 dep2 bound check2 = Ok (c2', u2') ->
  same_results b1 c1' b2 c2'.
Proof.
  intros He Hd W1 F1 W2 F2 Fi1 Fi2 SR SI E1 E2.
  assert (Z1 := loop_frozen _ _ _ _ _ b1 He Hd W1 F1 Fi1).
  rewrite (sr_eps _ _ _ _ SR) in He. rewrite (sr_dep _ _ _ _ SR) in Hd. assert (Z2 := loop_frozen _ _ _ _ _ b2 He Hd W2 F2 Fi2).
  exact (executions_agree_bound _ _ _ _ _ _ _ _ _ _ _ _ W1 F1 W2 F2 Fi1 Fi2 SR SI Z1 Z2 _ _ _ _ _ _ _ _ _ _ _ _ E1 E2 eq_refl).
Qed.
Print Assumptions C72_execution_is_batching_transparent.
(** With different max_iterations the element must have halted in both. *)
Theorem C72_other_bound_if_halted (c1 : st) next1 upd1 halt1 lazy1 init1 dep1 bound1 check1 c1' u1'
  (c2 : st) next2 upd2 halt2 lazy2 init2 dep2 bound2 check2 c2' u2' b1 b2 p1 p2 :
  (0 < epsilon c1)%Qc -> (0 <= depression_constant c1)%Qc ->
  wf c1 -> fresh c1 -> wf c2 -> fresh c2 ->
  (forall k, step_fits c1 (upd1 (nth_state next1 k init1)) (halt1 (nth_state next1 k init1))) ->
  (forall k, step_fits c2 (upd2 (nth_state next2 k init2)) (halt2 (nth_state next2 k init2))) ->
  same_rows b1 c1 b2 c2 ->
  same_inputs (batch_shape c1) b1 next1 upd1 halt1 init1 (batch_shape c2) b2 next2 upd2 halt2 init2 ->
  execute_act (simple_layer c1 next1 upd1 halt1 lazy1) init1 dep1 bound1 check1 = Ok (c1', u1') ->
  execute_act (simple_layer c2 next2 upd2 halt2 lazy2) init2 dep2 bound2 check2 = Ok (c2', u2') ->
  (probabilities c1').[b1] = Some p1 -> (1 - epsilon c1 < p1)%Qc ->
  (probabilities c2').[b2] = Some p2 -> (1 - epsilon c2 < p2)%Qc ->
  same_results b1 c1' b2 c2'.
Proof.
  intros He Hd W1 F1 W2 F2 Fi1 Fi2 SR SI E1 E2 Hp1 L1 Hp2 L2.
  assert (Z1 := loop_frozen _ _ _ _ _ b1 He Hd W1 F1 Fi1).
  rewrite (sr_eps _ _ _ _ SR) in He. rewrite (sr_dep _ _ _ _ SR) in Hd. assert (Z2 := loop_frozen _ _ _ _ _ b2 He Hd W2 F2 Fi2).
  assert (HH : forall (c c' : st) next upd halt lazy init dep bound check u' b p, wf c -> fresh c ->
            (forall k, step_fits c (upd (nth_state next k init)) (halt (nth_state next k init))) ->
            execute_act (simple_layer c next upd halt lazy) init dep bound check = Ok (c', u') ->
            (probabilities c').[b] = Some p -> (1 - epsilon c < p)%Qc -> halted c' b = Some true).
  { intros c c' next upd halt lazy init dep bound check u' b p W F Fi E Hp L.
    destruct (execute_history _ _ _ _ _ _ _ _ _ _ _ (wf_proper _ W) E) as (n & _ & _ & S & _).
    etransitivity; [exact (halted_get _ _ _ Hp)|]. f_equal. unfold halted_at, threshold. rewrite (ss_eps _ _ S).
    assert (Fr := loop_frame c next upd halt init W F Fi n). rewrite (sf_eps _ _ Fr). apply Qcltb_lt. exact L. }
  exact (executions_agree _ _ _ _ _ _ _ _ _ _ _ _ W1 F1 W2 F2 Fi1 Fi2 SR SI Z1 Z2 _ _ _ _ _ _ _ _ _ _ _ _ E1 E2
    (HH _ _ _ _ _ _ _ _ _ _ _ _ _ W1 F1 Fi1 E1 Hp1 L1) (HH _ _ _ _ _ _ _ _ _ _ _ _ _ W2 F2 Fi2 E2 Hp2 L2)).
Qed.
Print Assumptions C72_other_bound_if_halted.
(** The layer over element [b] alone, with batch shape [()]: its execution returns as well, and gives the
    element what the execution over the batch gives it. *)
Theorem C72_element_alone (c : st) next upd halt lazy init dep bound check c' u' b :
  (0 < epsilon c)%Qc -> (0 <= depression_constant c)%Qc -> wf c -> fresh c -> accumulators c <> [] -> error_mode c = None ->
  (forall k, step_fits c (upd (nth_state next k init)) (halt (nth_state next k init))) ->
  abstract_user (next init) = abstract_user init -> b < size (batch_shape c) ->
  execute_act (simple_layer c next upd halt lazy) init dep bound check = Ok (c', u') ->
  exists d v, execute_act (simple_layer (alone b c) next (fun u => row_dict (batch_shape c) b (upd u)) (fun u => row (batch_shape c) b (halt u))
      (fun _ _ => Ok tt)) init dep bound check = Ok (d, v) /\
    same_results b c' 0 d.
Proof.
  intros He Hd W F Ne Em Fi Au Hb E.
  assert (Wa := alone_wf b c W Hb). assert (Fa := alone_fresh b c W F).
  assert (Fia := fun k => alone_step_fits b c _ _ W Hb (Fi k)).
  destruct (C71_execute_act_returns (alone b c) next (fun u => row_dict (batch_shape c) b (upd u)) (fun u => row (batch_shape c) b (halt u))
    (fun _ _ => Ok tt) init dep bound check Wa Fa) as (d & v & E'); auto.
  { cbn [alone accumulators]. destruct (accumulators c); [contradiction|discriminate]. }
  exists d, v. split; [exact E'|].
  refine (C72_execution_is_batching_transparent c next upd halt lazy init dep check c' u' (alone b c) _ _ _ _ _ _ _ d v b 0 bound
    He Hd W F Wa Fa Fi Fia _ _ E E').
  - apply alone_same; auto. intros k u Hu. destruct F as (_ & _ & _ & _ & F). rewrite (F k u Hu). constructor.
  - now apply alone_inputs.
Qed.
Print Assumptions C72_element_alone.
Definition layU_alone (b : nat) : layer QcNum :=
  simple_layer (alone b ctl0) nextU (fun u => row_dict [2] b (updU u)) (fun u => row [2] b (haltU u)) (fun _ _ => Ok tt).
Definition accs_of (r : res (st * tr)) : list (list (list Q)) :=
  match r with Ok (c, _) => map (fun kv : string * tr => map (fun a : array QcNum => map this (a_data a)) (leaves (snd kv))) (accumulators c) | Err _ => [] end.
Example C72_case : (0 < epsilon ctl0)%Qc /\ (0 <= depression_constant ctl0)%Qc /\ wf ctl0 /\ fresh ctl0 /\ accumulators ctl0 <> [] /\
  error_mode ctl0 = None /\ (forall k, step_fits ctl0 (updU (nth_state nextU k initU)) (haltU (nth_state nextU k initU))) /\
  abstract_user (nextU initU) = abstract_user initU /\ 0 < size (batch_shape ctl0) /\
  (* the batch makes four iterations, element 0 on its own two *)
  stats_of (execute_act layU initU (q 1 1) 10 true) = [[1; 1]; [1#2; 1#4]; [2; 4]]%Q /\
  stats_of (execute_act (layU_alone 0) initU (q 1 1) 10 true) = [[1]; [1#2]; [2]]%Q /\
  stats_of (execute_act (layU_alone 1) initU (q 1 1) 10 true) = [[1]; [1#4]; [4]]%Q /\
  accs_of (execute_act layU initU (q 1 1) 10 true) = [[[6; 8; 10; 12]]; [[1; 2]; [7#2; 13#3]]]%Q /\
  accs_of (execute_act (layU_alone 0) initU (q 1 1) 10 true) = [[[6; 8]]; [[1]; [7#2]]]%Q /\
  accs_of (execute_act (layU_alone 1) initU (q 1 1) 10 true) = [[[10; 12]]; [[2]; [13#3]]]%Q.
Proof.
  split; [cq|]. split; [cq|]. split; [exact ctl0_wf|]. split; [exact ctl0_fresh|]. split; [exact layU_accs|].
  split; [reflexivity|]. split; [exact layU_fits|]. split; [reflexivity|]. split; [change (batch_shape ctl0) with [2]; cbn; lia|]. repeat split; vm.
Qed.
