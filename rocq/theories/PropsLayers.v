(** * Properties of the layers (C50 - C55, C59). Vocabulary: LayerSpec.v. *)
From Coq Require Import QArith Qcanon.
From Verif Require Import Base PyTree Tensor Num Utils States Controller Builder Layers Wf Spec History ElementSpec BuilderSpec StateSpec LayerSpec.
From Verif Require Import BaseFacts PyTreeFacts TensorFacts ControllerFacts IterateFacts ResetFacts HistoryFacts BuilderFacts.
From Verif Require Import QcFacts SpecFacts GravesFacts ExactFacts ExactFacts2 StateFacts LayerFacts LayerFacts2 LayerFacts3 Samples.
Close Scope Qc_scope. Close Scope Q_scope. Open Scope string_scope. Open Scope list_scope. Open Scope nat_scope.

Definition raises {A} (r : res A) : option exn := match r with Err e => Some e | Ok _ => None end.
Ltac vm := vm_compute; reflexivity.
Ltac cq := unfold Qcle, Qclt; vm_compute; (reflexivity || discriminate).

(** ** C50 *)
Theorem C50_at_most_max_iterations {N} (l : layer N) init dep bound check c' u' :
  layer_typed l -> execute_act l init dep bound check = Ok (c', u') ->
  exists c n, l_make_controller l init dep = Ok (MCtrl c) /\
    turns l c init n c' u' /\ (Z.of_nat n <= Z.max 0 bound)%Z /\
    (all_halted c' \/ Z.of_nat n = Z.max 0 bound).
Proof.
  intros T H. destruct (execute_inv _ _ _ _ _ _ _ H) as (c & m' & M & _ & _ & _ & _ & W). exists c.
  destruct (while_total (run_layer_adapter check l) (c, init, mkM 0 bound) (Z.to_nat bound) (adapter_counts check l)) as (n & R & L).
  { cbn. lia. }
  rewrite W in R. assert (P : proper c) by (eapply (proj1 T); eauto).
  destruct (while_turns _ _ _ _ _ _ _ _ _ _ T P R eq_refl) as (A & _ & _ & _ & B & C). cbn [num_iterations max_num_iterations] in B, C.
  exists n. split; [exact M|]. split; [exact A|]. cbn in L. split; [lia|]. destruct C as [C|C]; [left; now apply all_halted_iff|right]. lia.
Qed.
Print Assumptions C50_at_most_max_iterations.
(** The loop of the model is the unbounded while loop (relation [while_runs], which has no bound and
    no failure of its own): it ends, for every layer, within max_iterations turns. *)
Theorem C50_loop_terminates {N} (l : layer N) check c init bound :
  exists n, while_runs (run_layer_adapter check l) (c, init, mkM 0 bound) n
              (while_fuel (Z.to_nat bound) (run_layer_adapter check l) (c, init, mkM 0 bound)) /\ n <= Z.to_nat bound.
Proof.
  destruct (while_total (run_layer_adapter check l) (c, init, mkM 0 bound) (Z.to_nat bound) (adapter_counts check l)) as (n & R & L).
  { cbn. lia. }
  exists n. split; [exact R|]. cbn in L. lia.
Qed.
Print Assumptions C50_loop_terminates.

(** a layer in the style of the docstring: the user state holds the halting probabilities *)
Definition ctl0 : st := mkState (epsilon ctl2) (iterations ctl2) (residuals ctl2) (probabilities ctl2) (defaults ctl2)
  (accumulators ctl2) (updates ctl2) (depression_constant ctl2) None.
Definition nextU (u : tr) : tr := u.
Definition updU (u : tr) : dict tr := [("y", u_y 1 2 3 4); ("x", u_x 5 6 7 8)].
Definition haltU (u : tr) : array QcNum := match u with Leaf a => a | _ => hp (q 0 1) (q 0 1) end.
Definition layU : layer QcNum := simple_layer ctl0 nextU updU haltU (fun _ _ => Ok tt).
Definition initU : tr := Leaf (hp (q 1 2) (q 1 4)).
Lemma ctl0_wf : wf ctl0.
Proof. destruct ctl2_ok as [W _]. destruct W. split; assumption. Qed.
Lemma ctl0_fresh : fresh ctl0.
Proof. destruct ctl2_ok as [_ F]. exact F. Qed.
Definition answer (r : res (st * tr)) : option bool :=
  match r with Ok (c, _) => Some (is_completely_halted c) | Err _ => None end.
Definition count_of (r : res (st * tr)) : list Q :=
  match r with Ok (c, _) => map this (a_data (iterations c)) | Err _ => [] end.
Example C50_case : layer_typed layU /\
  answer (execute_act layU initU (q 1 1) 10 true) = Some true /\ count_of (execute_act layU initU (q 1 1) 10 true) = [2#1; 4#1]%Q /\
  answer (execute_act layU initU (q 1 1) 3 true) = Some false /\ count_of (execute_act layU initU (q 1 1) 3 true) = [2#1; 3#1]%Q /\
  answer (execute_act layU initU (q 1 1) (-5) true) = Some false /\ count_of (execute_act layU initU (q 1 1) (-5) true) = [0#1; 0#1]%Q.
Proof. split; [apply simple_typed, wf_proper, ctl0_wf|]. repeat split; vm. Qed.

(** ** C51 *)
(** What execute_act returns with all elements halted is what the documented loop returns. *)
Theorem C51_result_of_documented_loop {N} (l : layer N) init dep bound check c' u' :
  layer_typed l -> layer_respects l -> execute_act l init dep bound check = Ok (c', u') ->
  all_halted c' ->
  exists c n d, l_make_controller l init dep = Ok (MCtrl c) /\ doc_loop l c init n d u' /\ same_state c' d.
Proof.
  intros T R H Hc. destruct (C50_at_most_max_iterations l init dep bound check c' u' T H) as (c & n & M & Tn & _ & _).
  assert (P : proper c) by (eapply (proj1 T); eauto).
  destruct (turns_doc l c c init n c' u' T R P P (same_state_refl c) Tn (proj2 (all_halted_iff c') Hc)) as (d & D & S). exists c, n, d. auto.
Qed.
Print Assumptions C51_result_of_documented_loop.
(** When the documented loop ends within max_iterations, execute_act returns its result. *)
Theorem C51_documented_loop_is_executed {N} (l : layer N) c init dep bound check n d u' :
  layer_typed l -> layer_respects l ->
  l_make_controller l init dep = Ok (MCtrl c) -> l_setup_lazy l c init = Ok tt -> error_mode c = None ->
  first_call_keeps_types l c init -> (check = true -> keeps_contract l c init) ->
  doc_loop l c init n d u' -> (Z.of_nat n <= bound)%Z ->
  exists c', execute_act l init dep bound check = Ok (c', u') /\ same_state c' d.
Proof. intros. eapply doc_execute; eauto. Qed.
Print Assumptions C51_documented_loop_is_executed.
Lemma layU_fits k : step_fits ctl0 (updU (nth_state nextU k initU)) (haltU (nth_state nextU k initU)).
Proof.
  assert (E : nth_state nextU k initU = initU) by (induction k as [|k IH]; [reflexivity|exact IH]). rewrite E.
  unfold updU. split; [repeat constructor; cbn; intuition discriminate|]. split.
  { intros x. change (dkeys (accumulators ctl0)) with ["x"; "y"]. cbn. tauto. }
  split; [|repeat split]. intros x t v Ht Hv. cbn [dget] in Hv.
  destruct (String.eqb_spec x "y") as [->|]; [|destruct (String.eqb_spec x "x") as [->|]; [|discriminate]];
    injection Hv as <-; apply Some_inj in Ht; subst t; (split; [reflexivity|]); split; repeat constructor.
Qed.
Lemma layU_none : all_none ctl0.
Proof. destruct ctl0_fresh as (_ & _ & _ & _ & F). exact F. Qed.
Lemma layU_accs : accumulators ctl0 <> [].
Proof. intros H. assert (X : length (accumulators ctl0) = 2) by vm. now rewrite H in X. Qed.
Example C51_case : layer_typed layU /\ layer_respects layU /\ l_make_controller layU initU (q 1 1) = Ok (MCtrl ctl0) /\
  l_setup_lazy layU ctl0 initU = Ok tt /\ error_mode ctl0 = None /\ first_call_keeps_types layU ctl0 initU /\
  keeps_contract layU ctl0 initU /\ exists n d, doc_loop layU ctl0 initU (S n) d initU /\ n < 4.
Proof.
  assert (W := ctl0_wf). assert (P := fresh_wf_pending _ ctl0_fresh).
  split; [apply simple_typed, wf_proper, W|]. split; [apply simple_respects|]. split; [reflexivity|]. split; [reflexivity|].
  split; [reflexivity|]. split; [|split].
  - destruct (simple_step_ok ctl0 updU haltU initU W P layU_none (layU_fits 0)) as (c1 & E & W' & P' & A' & Fr).
    exists (RTuple [ICtrl c1; IObj initU]), c1, initU. cbn [layU simple_layer l_run_iteration]. rewrite E. repeat split. apply frame_abstract; auto. exact layU_none.
  - apply simple_contract; auto; [exact layU_none|exact layU_accs|exact layU_fits].
  - destruct (calls_of_ok nextU updU haltU 4 ctl0 initU W P layU_none layU_fits) as [c' H].
    assert (Hc : is_completely_halted c' = true).
    { assert (X : match strictly ctl0 (loop_calls nextU updU haltU 4 initU) with Ok c => is_completely_halted c | Err _ => false end = true) by vm.
      rewrite H in X. exact X. }
    destruct (doc_loop_exists ctl0 nextU updU haltU (fun _ _ => Ok tt) 4 ctl0 c' initU W P layU_none layU_fits H Hc) as (k & d & L & D & _).
    destruct k as [|k]; [exfalso; inversion D as [? ? Z|]; subst; apply all_halted_iff in Z; assert (Y : is_completely_halted ctl0 = false) by vm; congruence|].
    exists k, d. split; [|lia]. replace (nth_state nextU (S k) initU) with initU in D; [exact D|].
    clear. induction k; [reflexivity|exact IHk].
Qed.

(** ** C52 *)
(** For an incoming controller that fulfils the contract: what is rejected, and how. *)
Theorem C52_contract_checked {N} (l : layer N) c u r :
  proper c -> clean c -> l_run_iteration l c u = Ok r ->
  (forall t, r = ROther t -> wrapped_run_iteration true l c u = Err TypeError) /\
  (forall is, r = RTuple is -> length is <> 2 -> wrapped_run_iteration true l c u = Err RuntimeError) /\
  (forall t x, r = RTuple [IObj t; x] -> wrapped_run_iteration true l c u = Err TypeError) /\
  (forall x, r = RTuple [ISame; x] -> wrapped_run_iteration true l c u = Err RuntimeError) /\
  (forall c' x, r = RTuple [ICtrl c'; x] -> wrapped_run_iteration true l c u = Ok r).
Proof.
  intros P (A & B & I) H. unfold wrapped_run_iteration. rewrite H. cbn [bind]. repeat split; intros; subst r; cbn [validate_update].
  - reflexivity.
  - rewrite (proj2 (Nat.eqb_neq _ _)) by assumption. reflexivity.
  - reflexivity.
  - reflexivity.
  - cbn [length Nat.eqb guard bind]. rewrite clean_committed; auto. apply P.
Qed.
Print Assumptions C52_contract_checked.
Theorem C52_exceptions_and_no_checks {N} (l : layer N) c u :
  (forall e check, l_run_iteration l c u = Err e -> wrapped_run_iteration check l c u = Err e) /\
  wrapped_run_iteration false l c u = l_run_iteration l c u /\
  (forall r, wrapped_run_iteration true l c u = Ok r -> l_run_iteration l c u = Ok r /\ exists c' x, r = RTuple [ICtrl c'; x]).
Proof.
  unfold wrapped_run_iteration. split; [intros e check ->; reflexivity|]. split; [now destruct (l_run_iteration l c u)|].
  intros r. destruct (l_run_iteration l c u) as [r'|]; cbn [bind]; [|discriminate].
  destruct (validate_update c r') as [[]|] eqn:V; cbn [bind]; [|discriminate]. intros [= <-]. split; [reflexivity|].
  destruct r' as [is|]; [|discriminate]. cbn in V. destruct (Nat.eqb (length is) 2) eqn:L; [|discriminate]. cbn in V. apply Nat.eqb_eq in L.
  destruct is as [|[] [|x [|]]]; try discriminate. eauto.
Qed.
Print Assumptions C52_exceptions_and_no_checks.
Definition lay_ret (r : ret QcNum) : layer QcNum := mkLayer (fun _ _ => Ok (MCtrl ctl0)) (fun _ _ => Ok r) (fun _ _ => Ok tt).
Example C52_case : proper ctl0 /\ clean ctl0 /\
  raises (wrapped_run_iteration true (lay_ret (ROther initU)) ctl0 initU) = Some TypeError /\
  raises (wrapped_run_iteration true (lay_ret (RTuple [ICtrl ctl0])) ctl0 initU) = Some RuntimeError /\
  raises (wrapped_run_iteration true (lay_ret (RTuple [IObj initU; ICtrl ctl0])) ctl0 initU) = Some TypeError /\
  raises (wrapped_run_iteration true (lay_ret (RTuple [ISame; IObj initU])) ctl0 initU) = Some RuntimeError /\
  raises (wrapped_run_iteration true (lay_ret (RTuple [ICtrl ctl0; IObj initU])) ctl0 initU) = None.
Proof.
  split; [apply wf_proper, ctl0_wf|]. split; [apply all_none_clean; [exact ctl0_wf|exact layU_none|exact layU_accs]|]. repeat split; vm.
Qed.

(** Without checks the loop itself refuses what is not a new controller and a state: [execute_act]
    raises TypeError or ValueError as Python's unpacking and the loop's type check do. *)
Theorem C52_unchecked {N} (l : layer N) init dep bound c :
  l_make_controller l init dep = Ok (MCtrl c) -> proper c -> l_setup_lazy l c init = Ok tt -> error_mode c = None ->
  let first r := forall c0, same_state c c0 -> l_run_iteration l c0 init = Ok r in
  let result := execute_act l init dep bound false in
  (forall is, first (RTuple is) -> length is <> 2 -> result = Err ValueError) /\
  (forall t x, first (RTuple [IObj t; x]) -> result = Err TypeError) /\
  (forall x c1, first (RTuple [x; ICtrl c1]) -> result = Err TypeError) /\
  (forall x, first (RTuple [x; ISame]) -> result = Err TypeError) /\
  (forall a, first (ROther (Leaf a)) -> result = Err (match a_shape a with [] | 2 :: _ => TypeError | _ => ValueError end)) /\
  (first (ROther tnone) -> result = Err TypeError) /\
  (forall n ts, n <> NNone -> first (ROther (Node n ts)) -> result = Err (if Nat.eqb (length ts) 2 then TypeError else ValueError)).
Proof.
  intros M P L Em. cbn zeta.
  assert (X : forall r e, (forall c0, same_state c c0 -> l_run_iteration l c0 init = Ok r) ->
     unpack (canonical c) r = Err e -> execute_act l init dep bound false = Err e).
  { intros r e Hr Hu. unfold execute_act, wrapped_make_controller. rewrite M. cbn [bind]. rewrite L. cbn [bind]. unfold while_loop.
    rewrite (leaves_ok_none c Em). cbn [guard bind]. rewrite rebuild_ok. cbn [bind run_layer_adapter]. unfold wrapped_run_iteration.
    rewrite (Hr _ (canonical_same c P)). cbn [bind]. rewrite Hu. reflexivity. }
  split; [|split; [|split; [|split; [|split; [|split]]]]].
  - intros is F Hl. apply (X _ _ F). destruct is as [|[| |] [|[| |] [|]]]; cbn in *; congruence || lia.
  - intros t x F. apply (X _ _ F). now destruct x.
  - intros x c1 F. apply (X _ _ F). now destruct x.
  - intros x F. apply (X _ _ F). now destruct x.
  - intros a F. apply (X _ _ F). cbn. destruct (a_shape a) as [|[|[|[|]]]]; reflexivity.
  - intros F. now apply (X _ _ F).
  - intros n ts Hn F. apply (X _ _ F). cbn. destruct n; [congruence|..]; destruct ts as [|? [|? [|]]]; reflexivity.
Qed.
Print Assumptions C52_unchecked.
(** Without checks too a result of [make_controller] that is not a controller is refused. *)
Theorem C52_unchecked_make {N} (l : layer N) init dep bound t :
  l_make_controller l init dep = Ok (MOther t) -> execute_act l init dep bound false = Err AttributeError.
Proof. intros M. unfold execute_act, wrapped_make_controller. now rewrite M. Qed.
Print Assumptions C52_unchecked_make.
(** A list where the tuple should be, a tuple of three, a controller handed back as the state. *)
Definition hands (r : ret QcNum) : layer QcNum := mkLayer (fun _ _ => Ok (MCtrl ctl0)) (fun _ _ => Ok r) (fun _ _ => Ok tt).
Example C52_unchecked_case : proper ctl0 /\ error_mode ctl0 = None /\
  raises (execute_act (hands (ROther (Node NList [t_x; t_x; t_x]))) initU (q 1 1) 3 false) = Some ValueError /\
  raises (execute_act (hands (RTuple [ICtrl ctl0; IObj t_x; IObj t_x])) initU (q 1 1) 3 false) = Some ValueError /\
  raises (execute_act (hands (RTuple [ISame; ICtrl ctl0])) initU (q 1 1) 3 false) = Some TypeError /\
  raises (execute_act (hands (RTuple [IObj t_x; IObj t_x])) initU (q 1 1) 3 true) = Some TypeError.
Proof. split; [apply wf_proper, ctl0_wf|]. repeat split; vm. Qed.

(** ** C53 *)
(** The wrapper accepts every returned controller, whatever it holds, if the incoming one is clean;
    and rejects every returned controller if the incoming one holds an update. *)
Theorem C53_refuted {N} (l : layer N) c u c' x :
  proper c -> l_run_iteration l c u = Ok (RTuple [ICtrl c'; x]) ->
  (clean c -> wrapped_run_iteration true l c u = Ok (RTuple [ICtrl c'; x])) /\
  (~ idle c -> wrapped_run_iteration true l c u = Err RuntimeError) /\
  (updates c = [] -> wrapped_run_iteration true l c u = Err RuntimeError).
Proof.
  intros P H. split; [|split].
  - intros C. now apply (C52_contract_checked l c u _ P C H) with (c' := c') (x := x).
  - intros I. unfold wrapped_run_iteration. rewrite H. cbn [bind validate_update length Nat.eqb guard]. unfold validate_all_committed.
    assert (E : has_cached_updates c = true).
    { apply not_false_iff_true. intros E. apply I. apply idle_has_cached; [apply P|exact E]. }
    rewrite E. destruct (updates_ready_to_commit c); reflexivity.
  - intros E. unfold wrapped_run_iteration. rewrite H. cbn [bind validate_update length Nat.eqb guard]. unfold validate_all_committed, updates_ready_to_commit.
    rewrite E. reflexivity.
Qed.
Print Assumptions C53_refuted.
(** Through execute_act a first iteration that leaves an update pending is stopped all the same: the
    structure of the loop carry has changed. *)
Theorem C53_partial {N} (l : layer N) init dep bound check c :
  layer_typed l -> l_make_controller l init dep = Ok (MCtrl c) -> idle c ->
  (forall c0 r c1 u1, same_state c c0 -> l_run_iteration l c0 init = Ok r -> hands_back c0 r c1 u1 -> ~ idle c1) ->
  exists e, execute_act l init dep bound check = Err e.
Proof.
  intros T M I H. destruct (execute_act l init dep bound check) as [[c' u']|e] eqn:E; [|eauto]. exfalso.
  destruct (execute_inv _ _ _ _ _ _ _ E) as (c2 & m' & M' & _ & _ & _ & (c1 & u1 & m1 & B & A) & _).
  assert (c2 = c) by congruence. subst c2. assert (P : proper c) by (eapply (proj1 T); eauto).
  destruct (adapter_ok _ _ _ _ _ _ _ _ B) as (r & Hr & Hh & _).
  apply (H (canonical c) r c1 u1 (canonical_same c P) Hr Hh).
  eapply abstract_idle; [exact P| |exact I|exact A]. exact (proj2 T _ _ _ _ _ (canonical_proper c P) Hr Hh).
Qed.
Print Assumptions C53_partial.
(** never commits *)
Definition layP : layer QcNum := mkLayer (fun _ _ => Ok (MCtrl ctl0))
  (fun c u => match strictly c [CCache "x" t_x] with Ok c' => Ok (RTuple [ICtrl c'; IObj u]) | Err e => Err e end) (fun _ _ => Ok tt).
Example C53_case : clean ctl0 /\ proper ctl0 /\ idle ctl0 /\ layer_typed layP /\
  is_ok (wrapped_run_iteration true layP ctl0 initU) = true /\
  (forall c0 r c1 u1, same_state ctl0 c0 -> l_run_iteration layP c0 initU = Ok r -> hands_back c0 r c1 u1 -> ~ idle c1) /\
  raises (execute_act layP initU (q 1 1) 10 true) = Some TypeError.
Proof.
  assert (C : clean ctl0) by (apply all_none_clean; [exact ctl0_wf|exact layU_none|exact layU_accs]).
  split; [exact C|]. split; [apply wf_proper, ctl0_wf|]. split; [apply C|]. split; [|split; [vm|split; [|vm]]].
  - split; cbn [layP l_make_controller l_run_iteration].
    + intros _ _ c [= <-]. apply wf_proper, ctl0_wf.
    + intros c u r c' u' P. destruct (strictly c [CCache "x" t_x]) as [c1|] eqn:E; [|discriminate]. intros [= <-] Hh. cbn in Hh. destruct Hh as [-> _].
      eapply strictly_proper; eauto.
  - intros c0 r c1 u1 S.
    assert (U : exists s', cache_update c0 "x" t_x = Ok s' /\ dget "x" (updates s') = Some t_x).
    { rewrite cache_update_char, <- (ss_upd _ _ S). change (dget "x" (updates ctl0)) with (Some (@tnone (array QcNum))). cbn [is_none tnone].
      eexists. split; [reflexivity|]. apply dget_dset_eq. }
    destruct U as (s' & E & U). cbn [layP l_run_iteration strictly apply_call]. rewrite E. intros Hr Hh.
    assert (X : r = RTuple [ICtrl s'; IObj initU]) by congruence. subst r. destruct Hh as [-> _]. intros I. now specialize (I "x" t_x U).
Qed.

(** ** C54 *)
Theorem C54_make_controller_checked {N} (l : layer N) init dep :
  (forall t, l_make_controller l init dep = Ok (MOther t) -> wrapped_make_controller true l init dep = Err TypeError) /\
  (forall c, l_make_controller l init dep = Ok (MCtrl c) -> accumulators c = [] ->
     wrapped_make_controller true l init dep = Err RuntimeError) /\
  (forall c, l_make_controller l init dep = Ok (MCtrl c) -> accumulators c <> [] ->
     wrapped_make_controller true l init dep = Ok (MCtrl c)) /\
  (forall e check, l_make_controller l init dep = Err e -> wrapped_make_controller check l init dep = Err e) /\
  wrapped_make_controller false l init dep = l_make_controller l init dep.
Proof.
  unfold wrapped_make_controller. split; [intros t ->; reflexivity|]. split; [|split; [|split]].
  - intros c -> E. cbn. now rewrite E.
  - intros c -> E. cbn. destruct (accumulators c); [contradiction|reflexivity].
  - intros e check ->. reflexivity.
  - now destruct (l_make_controller l init dep).
Qed.
Print Assumptions C54_make_controller_checked.
(** execute_act runs these checks before anything else of the layer *)
Theorem C54_execute_act_checks {N} (l : layer N) init dep bound e :
  wrapped_make_controller true l init dep = Err e -> execute_act l init dep bound true = Err e.
Proof. intros H. unfold execute_act. now rewrite H. Qed.
Print Assumptions C54_execute_act_checks.
Example C54_case : raises (wrapped_make_controller true (mkLayer (fun _ _ => Ok (MOther initU)) (fun _ _ => Err ValueError) (fun _ _ => Ok tt)) initU (q 1 1)) = Some TypeError /\
  raises (wrapped_make_controller true (mkLayer (fun _ _ => Ok (MCtrl (core2 (q 1 1)))) (fun _ _ => Err ValueError) (fun _ _ => Ok tt)) initU (q 1 1)) = Some RuntimeError /\
  raises (wrapped_make_controller true layU initU (q 1 1)) = None /\
  raises (execute_act (mkLayer (fun _ _ => Ok (MOther initU)) (fun _ _ => Err ValueError) (fun _ _ => Ok tt)) initU (q 1 1) 3 true) = Some TypeError.
Proof. repeat split; vm. Qed.

(** ** C55 *)
Theorem C55_probability_floor_halts (c0 : st) next upd halt lazy init dep bound check (n : nat) (floor : Qc) :
  (0 < epsilon c0)%Qc -> (epsilon c0 <= 1)%Qc -> (0 <= depression_constant c0)%Qc ->
  wf c0 -> fresh c0 -> accumulators c0 <> [] -> error_mode c0 = None -> lazy c0 init = Ok tt ->
  (forall k, let u := nth_state next k init in
     step_fits c0 (upd u) (halt u) /\
     forall i v, nth_error (a_data (halt u)) i = Some v -> (floor <= depression_constant c0 * clamp v)%Qc) ->
  abstract_user (next init) = abstract_user init ->
  (1 - epsilon c0 < Qc_of_nat n * floor)%Qc -> (Z.of_nat n <= bound)%Z ->
  exists k c', k <= n /\
    execute_act (simple_layer c0 next upd halt lazy) init dep bound check = Ok (c', nth_state next k init) /\
    all_halted c'.
Proof.
  intros He He1 Hd W F Ne Em Hl H Au Hq L. assert (P := fresh_wf_pending _ F).
  assert (A : all_none c0) by (destruct F as (_ & _ & _ & _ & F); exact F).
  assert (Fi : forall k, step_fits c0 (upd (nth_state next k init)) (halt (nth_state next k init))) by (intros k; exact (proj1 (H k))).
  destruct (calls_of_ok next upd halt n c0 init W P A Fi) as [c' Hs].
  destruct (strictly_run _ _ _ Hs) as [R Rt].
  destruct (calls_of_floor next upd halt c0 floor n init) as (Nr & Fl & It); [intros k; exact (proj2 (H k))|].
  assert (Hc : is_completely_halted c' = true).
  { rewrite <- R. apply (floor_halts c0 _ floor He He1 Hd W F); auto.
    - eapply calls_of_wf; eauto.
    - rewrite Rt, It. exact Hq. }
  destruct (simple_execute c0 next upd halt lazy init dep bound check n c' W P A Ne Em Hl Fi Au Hs Hc L) as (k & d & Hk & E & H').
  exists k, d. split; [exact Hk|]. split; [exact E|]. now apply all_halted_iff.
Qed.
Print Assumptions C55_probability_floor_halts.
Example C55_case : (0 < epsilon ctl0)%Qc /\ (epsilon ctl0 <= 1)%Qc /\ (0 <= depression_constant ctl0)%Qc /\
  wf ctl0 /\ fresh ctl0 /\ accumulators ctl0 <> [] /\ error_mode ctl0 = None /\
  (forall k, let u := nth_state nextU k initU in step_fits ctl0 (updU u) (haltU u) /\
     forall i v, nth_error (a_data (haltU u)) i = Some v -> (q 1 4 <= depression_constant ctl0 * clamp v)%Qc) /\
  abstract_user (nextU initU) = abstract_user initU /\ (1 - epsilon ctl0 < Qc_of_nat 4 * q 1 4)%Qc.
Proof.
  split; [cq|]. split; [cq|]. split; [cq|]. split; [exact ctl0_wf|]. split; [exact ctl0_fresh|]. split; [exact layU_accs|].
  split; [reflexivity|]. split; [|split; [reflexivity|cq]]. intros k u. split; [apply layU_fits|].
  assert (E : u = initU) by (unfold u; induction k as [|k IH]; [reflexivity|exact IH]). rewrite E. intros [|[|i]] v Hv; cbn in Hv.
  - injection Hv as <-. cq.
  - injection Hv as <-. cq.
  - destruct i; discriminate.
Qed.

(** ** C59 *)
(** Initialising lazy parameters cannot change a result. With frozen parameters a flax layer does
    what the same layer does with a [pass] for set-up (core.py:105). With mutable ones it gives that
    too, unless the extra run_iteration raises: then its exception comes out. *)
Theorem C59_lazy_setup_changes_nothing {N} make run init (dep : scl N) bound check :
  let plain := execute_act (mkLayer make run (fun _ _ => Ok tt)) init dep bound check in
  execute_act (flax_layer false make run) init dep bound check = plain /\
  (execute_act (flax_layer true make run) init dep bound check = plain \/
   exists c e, make init dep = Ok (MCtrl c) /\ run c init = Err e /\
     execute_act (flax_layer true make run) init dep bound check = Err e) /\
  (forall c e, make init dep = Ok (MCtrl c) -> (check = true -> accumulators c <> []) -> run c init = Err e ->
     execute_act (flax_layer true make run) init dep bound check = Err e).
Proof.
  unfold execute_act, wrapped_make_controller. cbn [flax_layer l_make_controller l_setup_lazy]. unfold flax_setup_lazy.
  split; [reflexivity|]. destruct (make init dep) as [m|e] eqn:M; cbn [bind]; [|split; [now left|discriminate]]. split.
  - destruct (if check then validate_made m else Ok tt); cbn [bind]; [|now left]. destruct m as [c|t]; [|now left].
    destruct (run c init) as [r|e] eqn:R; cbn [bind]; [left; reflexivity|right]. exists c, e. auto.
  - intros c e [= ->] NE R. assert (V : (if check then validate_made (MCtrl c) else Ok tt) = Ok tt).
    { destruct check; [|reflexivity]. cbn [validate_made]. specialize (NE eq_refl). destruct (accumulators c); [easy|reflexivity]. }
    rewrite V. cbn [bind]. now rewrite R.
Qed.
Print Assumptions C59_lazy_setup_changes_nothing.
Example C59_case :
  answer (execute_act (flax_layer true (l_make_controller layU) (l_run_iteration layU)) initU (q 1 1) 10 true) = Some true /\
  raises (execute_act (flax_layer true (l_make_controller layU) (fun _ _ => Err KeyError)) initU (q 1 1) 10 true) = Some KeyError.
Proof. split; vm. Qed.
