(** * C89: executions can be stopped and continued, and max_iterations beyond the need changes nothing.

    Vocabulary: ResumeSpec.v (the continuing layer), TraceSpec.v (layers that can be compiled),
    LayerSpec.v (docstring layers), ElementSpec.v (an element unchanged). *)
From Coq Require Import ZArith QArith Qcanon Lia.
From Verif Require Import Base PyTree Tensor Num Utils States Controller Layers Wf History ElementSpec StateSpec LayerSpec TraceSpec ResumeSpec.
From Verif Require Import BaseFacts PyTreeFacts ControllerFacts IterateFacts HistoryFacts StateFacts LayerFacts LayerFacts2 LayerFacts3 LayerFacts4 LoopFacts TraceFacts TraceFacts2 ResumeFacts.
From Verif Require Import Samples PropsController PropsLayers PropsLoop PropsTrace.
Close Scope Q_scope. Close Scope Qc_scope. Open Scope string_scope. Open Scope list_scope. Open Scope nat_scope.

(** [execute_act] with [n] iterations allowed, and then again with the remaining [m - n], going on from
    the controller and the user state returned: the same controller and user state as at once, and no
    exception. Any arithmetic; whatever [setup_lazy_parameters] does the second time, provided it returns. *)
Theorem C89_continued {N} (l : layer N) u dep n m check c1 u1 lazy dep' :
  traceable l -> layer_typed l -> (0 <= n <= m)%Z ->
  execute_act l u dep n check = Ok (c1, u1) -> lazy c1 u1 = Ok tt ->
  exists c2 u2,
    execute_act (continuing l c1 lazy) u1 dep' (m - n) check = Ok (c2, u2) /\
    execute_act l u dep m check = Ok (c2, u2).
Proof.
  intros Tr T B E L. destruct (execute_inv _ _ _ _ _ _ _ E) as (c & m1 & M & S & _ & A & _ & W).
  unfold execute_act, wrapped_make_controller in E |- *. cbn [continuing l_make_controller l_setup_lazy] in *. rewrite M in E |- *. cbn [bind] in E |- *.
  destruct (if check then validate_made (MCtrl c) else Ok tt) as [[]|] eqn:V; cbn [bind] in E |- *; [|discriminate]. rewrite S in E |- *. cbn [bind] in E |- *.
  destruct (while_loop (run_layer_adapter check l) (c, u, mkM 0 n)) as [[[cx ux] mx]|] eqn:X; cbn [bind] in E; [|discriminate].
  injection E as -> ->. assert (P := proj1 T _ _ _ M).
  destruct (loop_split check l c u n m c1 u1 mx Tr T P B X) as [Y [[c2 u2] Z]].
  assert (K : (if check then validate_made (MCtrl c1) else Ok tt) = Ok tt).
  { destruct check; [|reflexivity]. rewrite loop_traced in X. destruct (traced true l c u) as [[]|] eqn:Td; [|discriminate].
    destruct (traced_again _ _ _ _ _ _ _ _ _ _ Tr T P (Nat.le_refl _) Td X) as (_ & Lk & _).
    assert (Ln := F2_length _ _ _ (like_accumulators _ _ Lk)). cbn [canonical accumulators] in Ln.
    rewrite (Permutation.Permutation_length (sort_items_perm _)) in Ln. cbn [validate_made]. rewrite Ln.
    destruct (accumulators c); [exfalso; now apply (A eq_refl)|reflexivity]. }
  rewrite K. cbn [bind]. rewrite L. cbn [bind]. exists c2, u2. rewrite Z in Y.
  change (run_layer_adapter check (continuing l c1 lazy)) with (run_layer_adapter check l).
  split.
  - destruct (while_loop (run_layer_adapter check l) (c1, u1, mkM 0 (m - n))) as [[[a b] k]|]; cbn in Y |- *; congruence.
  - destruct (while_loop (run_layer_adapter check l) (c, u, mkM 0 m)) as [[[a b] k]|]; cbn in Z |- *; congruence.
Qed.
Print Assumptions C89_continued.
(** If all elements have halted, a larger bound gives the same result (any layer). *)
Theorem C89_spare_iterations {N} (l : layer N) u dep n m check c1 u1 :
  (n <= m)%Z -> execute_act l u dep n check = Ok (c1, u1) -> all_halted c1 ->
  execute_act l u dep m check = Ok (c1, u1).
Proof.
  intros B E H. apply all_halted_iff in H. unfold execute_act in E |- *.
  destruct (wrapped_make_controller check l u dep) as [[c|t]|]; cbn [bind] in E |- *; try discriminate.
  destruct (l_setup_lazy l c u) as [[]|]; cbn [bind] in E |- *; [|discriminate].
  destruct (while_loop (run_layer_adapter check l) (c, u, mkM 0 n)) as [[[cx ux] mx]|] eqn:X; cbn [bind] in E; [|discriminate].
  injection E as -> ->. assert (Y := loop_spare check l c u n m c1 u1 mx B X H).
  destruct (while_loop (run_layer_adapter check l) (c, u, mkM 0 m)) as [[[a b] k]|]; cbn in Y |- *; congruence.
Qed.
Print Assumptions C89_spare_iterations.

(** ** An element that has halted is finished, whatever the others need *)
Section Finished.
  Context {N : numsys}.
  Lemma same_element_same b (s s' t t' : state N) : same_state s' s -> same_state t' t -> same_element b s t -> same_element b s' t'.
  Proof.
    intros S T (A & B & C). split; [|split].
    - now rewrite (ss_r _ _ S), (ss_r _ _ T).
    - now rewrite (ss_i _ _ S), (ss_i _ _ T).
    - intros k x y Hx Hy l a a' Ha Ha' R HR j Hj. rewrite (ss_acc _ _ S) in Hx. rewrite (ss_acc _ _ T) in Hy.
      unfold batch_shape in HR. rewrite (ss_p _ _ S) in HR. exact (C k x y Hx Hy l a a' Ha Ha' R HR j Hj).
  Qed.
  Lemma finished_core (c : state N) next upd halt lazy init dep n m check c1 u1 c2 u2 b :
    wf c -> (n <= m)%Z ->
    (forall i j, halted (run c (loop_calls next upd halt i init)) b = Some true ->
       same_element b (run c (loop_calls next upd halt i init)) (run c (loop_calls next upd halt (i + j) init)) /\
       halted (run c (loop_calls next upd halt (i + j) init)) b = Some true) ->
    execute_act (simple_layer c next upd halt lazy) init dep n check = Ok (c1, u1) ->
    execute_act (simple_layer c next upd halt lazy) init dep m check = Ok (c2, u2) ->
    halted c1 b = Some true -> same_element b c1 c2 /\ halted c2 b = Some true.
  Proof.
    intros W B Z E1 E2 H.
    destruct (execute_history _ _ _ _ _ _ _ _ _ _ _ (wf_proper _ W) E1) as (n1 & _ & B1 & S1 & _ & C1 & M1).
    destruct (execute_history _ _ _ _ _ _ _ _ _ _ _ (wf_proper _ W) E2) as (n2 & _ & B2 & S2 & _ & C2 & M2).
    assert (L : n1 <= n2).
    { destruct (Nat.le_gt_cases n1 n2) as [L|L]; [exact L|exfalso]. destruct C2 as [C2|C2]; [|lia].
      apply (M1 n2 L). intros p Hp. rewrite <- (ss_p _ _ S2) in Hp. rewrite <- (ss_eps _ _ S2). now apply C2. }
    unfold halted in *. rewrite <- (halted_same _ _ S1) in H. destruct (Z n1 (n2 - n1) H) as [Q1 Q2].
    replace (n1 + (n2 - n1)) with n2 in Q1, Q2 by lia. split; [exact (same_element_same _ _ _ _ _ S1 S2 Q1)|].
    now rewrite <- (halted_same _ _ S2).
  Qed.
End Finished.
Theorem C89_halted_elements_are_final (c : st) next upd halt lazy init dep n m check c1 u1 c2 u2 b :
  (0 < epsilon c)%Qc -> (0 <= depression_constant c)%Qc -> wf c -> fresh c ->
  (forall k, step_fits c (upd (nth_state next k init)) (halt (nth_state next k init))) -> (n <= m)%Z ->
  execute_act (simple_layer c next upd halt lazy) init dep n check = Ok (c1, u1) ->
  execute_act (simple_layer c next upd halt lazy) init dep m check = Ok (c2, u2) ->
  halted c1 b = Some true -> same_element b c1 c2 /\ halted c2 b = Some true.
Proof.
  intros He Hd W F Fi B. apply finished_core; auto. intros i j Hh. split; [now apply loop_frozen|].
  rewrite loop_calls_split, run_app.
  assert (K : forall m, Forall call_wf (loop_calls next upd halt m init)) by (intros k; eapply calls_of_wf; eauto).
  destruct (run_wf c _ W (fresh_wf_pending _ F) (K i)) as [W' P']. assert (Fr := run_frame c _ W (fresh_wf_pending _ F) (K i)).
  apply C04_halting_is_permanent; auto.
  - specialize (K (i + j)). rewrite loop_calls_split in K. now apply Forall_app in K.
  - apply loop_no_reset.
  - now rewrite (sf_eps _ _ Fr).
  - now rewrite (sf_dep _ _ Fr).
Qed.
Print Assumptions C89_halted_elements_are_final.

(** The sample layer stopped after three of its four iterations and continued; with more iterations than
    needed; and element 0, which has halted after two. *)
Definition stopped (k : Z) := execute_act layU initU (q 1 1) k true.
Definition continued (k : Z) : res (st * tr) :=
  '(c, u) <- stopped 3 ;; execute_act (continuing layU c (fun _ _ => Ok tt)) u (q 1 1) k true.
Example C89_case : traceable layU /\ layer_typed layU /\ (0 < epsilon ctl0)%Qc /\ (0 <= depression_constant ctl0)%Qc /\ wf ctl0 /\ fresh ctl0 /\
  (forall k, step_fits ctl0 (updU (nth_state nextU k initU)) (haltU (nth_state nextU k initU))) /\
  answer (stopped 3) = Some false /\ answer (continued 0) = Some false /\ answer (continued 1) = Some true /\
  stats_of (stopped 3) = [[1; 3#4]; [1#2; 0]; [2; 3]]%Q /\ stats_of (continued 1) = [[1; 1]; [1#2; 1#4]; [2; 4]]%Q /\
  stats_of (stopped 4) = [[1; 1]; [1#2; 1#4]; [2; 4]]%Q /\ accs_of (continued 1) = accs_of (stopped 4) /\ accs_of (stopped 40) = accs_of (stopped 4) /\
  match stopped 3 with Ok (c, _) => halted c 0 | Err _ => None end = Some true /\ accs_of (stopped 3) <> accs_of (stopped 4).
Proof.
  split; [exact layU_traceable|]. split; [apply simple_typed, wf_proper, ctl0_wf|]. split; [cq|]. split; [cq|].
  split; [exact ctl0_wf|]. split; [exact ctl0_fresh|]. split; [exact layU_fits|].
  split; [vm|]. split; [vm|]. split; [vm|]. split; [vm|]. split; [vm|]. split; [vm|]. split; [vm|]. split; [vm|]. split; [vm|].
  vm_compute. discriminate.
Qed.
(** Without the hypothesis that the layer does not look into arrays: one that raises when asked to
    iterate a completely halted controller is executed without complaint, and cannot be continued. *)
Definition layDone : layer QcNum :=
  mkLayer (l_make_controller layU) (fun c u => if is_completely_halted c then Err ValueError else l_run_iteration layU c u) (fun _ _ => Ok tt).
Example C89_needs_traceable : raises (execute_act layDone initU (q 1 1) 4 true) = None /\
  raises ('(c, u) <- execute_act layDone initU (q 1 1) 4 true ;; execute_act (continuing layDone c (fun _ _ => Ok tt)) u (q 1 1) 1 true) = Some ValueError.
Proof. split; vm. Qed.
