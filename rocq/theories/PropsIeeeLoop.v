(** * C86: what execute_act returns in IEEE-754 arithmetic, run by Python and compiled.

    Vocabulary: IeeeLoopSpec.v, LayerSpec.v (docstring layers), ScalarSpec.v (the program of one element),
    FloatSpec.v, JitSpec.v (the two thresholds). *)
From Coq Require Import ZArith Reals Lia Lra Psatz.
From Flocq Require Import Core BinarySingleNaN.
From Verif Require Import Base PyTree Tensor Num FloatNum FloatSpec Utils States Controller Builder Layers
  Wf Spec History ElementSpec ScalarSpec BuilderSpec StateSpec LayerSpec Jit JitSpec IeeeLoopSpec.
From Verif Require Import BaseFacts PyTreeFacts ControllerFacts IterateFacts HistoryFacts AgreeFacts GravesFacts ExactFacts ElementFacts StateFacts LayerFacts LayerFacts2 LayerFacts3 LayerFacts4 LoopFacts
  ScalarFacts ScriptFacts FloatFacts FloatFacts2 FloatFacts3 FloatFacts4 FloatFacts5 MoveFacts JitFacts IeeeLoopFacts IeeeLoopFacts2.
From Verif Require Import PropsController PropsScalar PropsFloat PropsRounding PropsLoopFloat PropsJit.
Close Scope R_scope. Close Scope Z_scope. Open Scope string_scope. Open Scope list_scope. Open Scope nat_scope.

Section Elements.
  Context {prec emax : Z} {Hp : Prec_gt_0 prec} {Hm : Prec_lt_emax prec emax}.
  Notation F := (FloatNum prec emax).
  Notation bf := (binary_float prec emax).
  Lemma running_element (c0 : state F) next upd halt init m :
    wf c0 -> fresh c0 -> (forall k, step_fits c0 (upd (nth_state next k init)) (halt (nth_state next k init))) ->
    ~ all_halted (run c0 (loop_calls next upd halt m init)) ->
    exists i, i < size (batch_shape c0) /\
      is_over (threshold c0) (stats_run (threshold c0) (v_of_scl F (depression_constant c0)) stats0 (map Some (halting_inputs next halt init i m))) = false.
  Proof.
    intros W Fr Fi NA.
    destruct (existsb (fun i => negb (is_over (threshold c0) (stats_run (threshold c0) (v_of_scl F (depression_constant c0)) stats0
      (map Some (halting_inputs next halt init i m) : list (option (val F)))))) (seq 0 (size (batch_shape c0)))) eqn:E.
    - apply existsb_exists in E as (i & Hi & Ei). apply in_seq in Hi. exists i. split; [lia|]. now apply negb_true_iff in Ei.
    - exfalso. apply NA. intros p Hin. apply In_nth_error in Hin as [i Hpi].
      assert (P := Samples.fresh_wf_pending _ Fr). assert (Cw := ie_wf c0 next upd halt init Fi m). destruct (run_wf c0 _ W P Cw) as [W' _].
      assert (Hi : i < size (batch_shape c0)).
      { assert (X := sf_p _ _ (run_frame c0 _ W P Cw)). unfold sig in X. injection X as X _.
        assert (L : nth_error (a_data (probabilities (run c0 (loop_calls next upd halt m init)))) i <> None) by congruence.
        apply nth_error_Some in L. rewrite (wf_batch_len _ W') in L. unfold batch_shape in *. now rewrite X in L. }
      assert (Q : existsb (fun i => negb (is_over (threshold c0) (stats_run (threshold c0) (v_of_scl F (depression_constant c0)) stats0
        (map Some (halting_inputs next halt init i m) : list (option (val F)))))) (seq 0 (size (batch_shape c0))) <> true) by now rewrite E.
      destruct (v_ltb F (v_of_scl F (s_one_sub F (epsilon (run c0 (loop_calls next upd halt m init))))) p) eqn:Ev; [reflexivity|]. exfalso. apply Q.
      apply existsb_exists. exists i. split; [apply in_seq; lia|]. apply negb_true_iff.
      destruct (element_exists _ i p W' Hpi) as (r & k & El).
      assert (S := ie_stats c0 next upd halt init W Fr Fi m i p r k Hi El).
      etransitivity; [|exact Ev]. rewrite (sf_eps _ _ (run_frame c0 _ W P Cw)). fold (threshold c0).
      change (v_ltb F (threshold c0) p) with (is_over (threshold c0) (mkStats p r k)). f_equal. symmetry. exact S.
  Qed.
End Elements.

(** ** Run by Python (or compiled with jax_enable_x64) *)
Theorem C86_execution (prec emax : Z) {Hp : Prec_gt_0 prec} {Hm : Prec_lt_emax prec emax}
  (c0 : state (FloatNum prec emax)) next upd halt lazy init dep bound check c' u' :
  (2 <= prec)%Z -> eps_ok (epsilon c0) -> dep_ok prec emax (depression_constant c0) -> wf c0 -> fresh c0 ->
  (forall k, step_fits c0 (upd (nth_state next k init)) (halt (nth_state next k init))) ->
  (forall k, Forall not_nan (a_data (halt (nth_state next k init)))) ->
  execute_act (simple_layer c0 next upd halt lazy) init dep bound check = Ok (c', u') ->
  let T := eager_threshold prec emax (epsilon c0) in
  let d := f_of_py (depression_constant c0) : binary_float prec emax in
  exists n, u' = nth_state next n init /\ (Z.of_nat n <= Z.max 0 bound)%Z /\
    (** it stops at the bound or when all elements have halted, and not sooner *)
    (Z.of_nat n = Z.max 0 bound \/ forall i, i < size (batch_shape c0) -> halted c' i = Some true) /\
    (forall m, m < n -> exists i, i < size (batch_shape c0) /\
       is_over (N := FloatNum prec emax) T (stats_run (N := FloatNum prec emax) T d stats0 (map Some (halting_inputs next halt init i m))) = false) /\
    (** and every element has the results of its scalar program, up to rounding *)
    forall i, i < size (batch_shape c0) ->
      statistics_accurate (N := FloatNum prec emax) (fun x => x) T d next halt init n c' i /\
      accumulators_accurate (N := FloatNum prec emax) (fun x => x) T d next upd halt init c0 n c' i.
Proof.
  intros H2 He Hd W Fr Fi Nn H T d.
  destruct (execute_history _ _ _ _ _ _ _ _ _ _ _ (wf_proper _ W) H) as (n & U & L & S & R & C & M). exists n.
  split; [exact U|]. split; [exact L|]. split; [|split].
  - destruct C as [C|C]; [right|left; exact C]. intros i Hi. destruct (ie_prob c0 next upd halt init W Fr Fi n i Hi) as (p & r & k & (E1 & _)).
    rewrite <- (ss_p _ _ S) in E1. unfold halted. rewrite (halted_get _ _ _ E1). f_equal. apply C. eapply nth_error_In; eauto.
  - intros m Hm'. exact (running_element c0 next upd halt init m W Fr Fi (M m Hm')).
  - intros i Hi. split.
    + eapply statistics_same; [exact S|]. exact (ie_statistics H2 c0 next upd halt init He Hd W Fr Fi Nn n i Hi).
    + eapply accumulators_same; [exact S|]. exact (ie_accumulators H2 c0 next upd halt init He Hd W Fr Fi Nn n i Hi).
Qed.
Print Assumptions C86_execution.

(** ** Compiled, in the default mode *)
(** [jit_tree] is what compiled code sees of a pytree: the same bits. *)
Lemma compiled_history (prec emax : Z) {Hp : Prec_gt_0 prec} {Hm : Prec_lt_emax prec emax}
  (c0 : state (FloatNum prec emax)) next upd halt next' upd' halt' lazy lazy' init dep bound check c' u' :
  (2 <= prec)%Z -> eps_ok (epsilon c0) -> fnonneg (f_conv prec emax (trace_scalar (depression_constant c0))) -> wf c0 -> fresh c0 ->
  traces_as next upd halt next' upd' halt' ->
  execute_act_compiled (simple_layer c0 next upd halt lazy) (simple_layer (into_jit c0) next' upd' halt' lazy') init dep bound check = Ok (c', u') ->
  exists (n : nat) (eps' dep' : pyfloat),
    (eps_ok eps' /\ Rabs (B2R eps' - B2R (epsilon c0 : pyfloat)) <= bpow radix2 (-24) + bpow radix2 (- prec - 1))%R /\
    B2R (eager_threshold prec emax eps') = B2R (compiled_threshold prec emax (epsilon c0)) /\
    (f_of_py dep' : binary_float prec emax) = f_conv prec emax (trace_scalar (depression_constant c0)) /\
    u' = jit_tree (nth_state next n init) /\ (Z.of_nat n <= Z.max 0 bound)%Z /\
    let c1 := with_settings c0 (eps' : scl (FloatNum prec emax)) dep' in
    let r := run c1 (loop_calls next upd halt n init) in
    same_state c' (with_settings (into_jit r) (trace_scalar (epsilon c0) : scl (JitNum prec emax)) (trace_scalar (depression_constant c0))) /\
    halted_batches c' = halted_batches r /\
    (all_halted r \/ Z.of_nat n = Z.max 0 bound) /\
    forall m, m < n -> ~ all_halted (run c1 (loop_calls next upd halt m init)).
Proof.
  intros H2 He Hd W Fr TA H. apply (compiled_is_execution next upd halt next' upd' halt' c0 lazy lazy') in H.
  destruct (C78_partial_other_epsilon prec emax (epsilon c0) (depression_constant c0) H2 He) as (eps' & dep' & Eps & ET & ED & _ & Run).
  assert (PJ : proper (into_jit c0)) by (apply wf_proper; now apply move_wf).
  destruct (execute_history _ _ _ _ _ _ _ _ _ _ _ PJ H) as (n & U & L & S & _ & C & M). exists n, eps', dep'.
  split; [exact Eps|]. split; [exact ET|]. split; [exact ED|].
  split; [rewrite U; now apply (traced_states next upd halt next' upd' halt')|]. split; [exact L|]. intros c1 r.
  rewrite (traced_calls next upd halt next' upd' halt' TA) in S.
  destruct (Run c0 (loop_calls next upd halt n init) eq_refl eq_refl) as (E & _ & Hb). fold c1 r in E, Hb. rewrite E in S.
  assert (AH : forall m, all_halted (run (into_jit c0) (loop_calls next' upd' halt' m (jit_tree init))) <-> all_halted (run c1 (loop_calls next upd halt m init))).
  { intros m. rewrite (traced_calls next upd halt next' upd' halt' TA). destruct (Run c0 (loop_calls next upd halt m init) eq_refl eq_refl) as (E' & _ & Hb').
    fold c1 in E', Hb'. rewrite E'. set (x := run c1 (loop_calls next upd halt m init)) in *. apply (f_equal data) in Hb'. clear -Hb'.
    unfold halted_batches, gt_scl in Hb'. cbn [tensor_map data] in Hb'.
    assert (Ex : forall (N : numsys) (s : state N), all_halted s <-> Forall (fun b => b = true) (map (fun v => v_ltb N (v_of_scl N (halt_threshold s)) v) (a_data (probabilities s)))).
    { intros N s. rewrite Forall_map, Forall_forall. reflexivity. }
    rewrite Ex, (Ex _ x). assert (Eq : map (fun v => v_ltb (JitNum prec emax) (v_of_scl (JitNum prec emax) (halt_threshold (with_settings (into_jit x) (trace_scalar (epsilon c0) : scl (JitNum prec emax)) (trace_scalar (depression_constant c0))))) v)
      (a_data (probabilities (with_settings (into_jit x) (trace_scalar (epsilon c0) : scl (JitNum prec emax)) (trace_scalar (depression_constant c0))))) =
      map (fun v => v_ltb (FloatNum prec emax) (v_of_scl (FloatNum prec emax) (halt_threshold x)) v) (a_data (probabilities x))) by exact Hb'. rewrite Eq. reflexivity. }
  split; [exact S|]. split; [rewrite <- Hb; apply halted_same; now apply same_state_sym|]. split.
  - destruct C as [C|C]; [left|right; exact C]. apply (AH n). rewrite (traced_calls next upd halt next' upd' halt' TA), E. eapply all_halted_same; [|exact C]. exact S.
  - intros m Hm'. rewrite <- AH. exact (M m Hm').
Qed.
Lemma other_settings {N} (s : state N) e d : (wf s -> wf (with_settings s e d)) /\ (fresh s -> fresh (with_settings s e d)) /\
  (forall u h, step_fits s u h -> step_fits (with_settings s e d) u h).
Proof. split; [|split]; [intros []; now constructor|intros X; exact X|intros u h X; exact X]. Qed.
Theorem C86_compiled_execution (prec emax : Z) {Hp : Prec_gt_0 prec} {Hm : Prec_lt_emax prec emax}
  (c0 : state (FloatNum prec emax)) next upd halt next' upd' halt' lazy lazy' init dep bound check c' u' :
  (2 <= prec)%Z -> eps_ok (epsilon c0) -> fnonneg (f_conv prec emax (trace_scalar (depression_constant c0))) -> wf c0 -> fresh c0 ->
  (forall k, step_fits c0 (upd (nth_state next k init)) (halt (nth_state next k init))) ->
  (forall k, Forall not_nan (a_data (halt (nth_state next k init)))) ->
  traces_as next upd halt next' upd' halt' ->
  execute_act_compiled (simple_layer c0 next upd halt lazy) (simple_layer (into_jit c0) next' upd' halt' lazy') init dep bound check = Ok (c', u') ->
  let T := compiled_threshold prec emax (epsilon c0) in
  let d := f_conv prec emax (trace_scalar (depression_constant c0)) : binary_float prec emax in
  exists n, u' = jit_tree (nth_state next n init) /\ (Z.of_nat n <= Z.max 0 bound)%Z /\
    (Z.of_nat n = Z.max 0 bound \/ forall i, i < size (batch_shape c0) -> halted c' i = Some true) /\
    (forall m, m < n -> exists i, i < size (batch_shape c0) /\
       is_over (N := FloatNum prec emax) T (stats_run (N := FloatNum prec emax) T d stats0 (map Some (halting_inputs next halt init i m))) = false) /\
    forall i, i < size (batch_shape c0) ->
      statistics_accurate (N := JitNum prec emax) (fun x => x) T d next halt init n c' i /\
      accumulators_accurate (N := JitNum prec emax) (fun x => x) T d next upd halt init c0 n c' i.
Proof.
  intros H2 He Hd W Fr Fi Nn TA H T d.
  destruct (compiled_history prec emax c0 _ _ _ _ _ _ _ _ _ _ _ _ _ _ H2 He Hd W Fr TA H) as (n & eps' & dep' & [He' _] & ET & ED & U & L & S & Hb & C & M).
  exists n. split; [exact U|]. split; [exact L|].
  set (c1 := with_settings c0 (eps' : scl (FloatNum prec emax)) dep') in *. set (r := run c1 (loop_calls next upd halt n init)) in *.
  destruct (other_settings c0 (eps' : scl (FloatNum prec emax)) dep') as (W1 & F1 & Fi1). specialize (W1 W). specialize (F1 Fr). fold c1 in W1, F1.
  assert (Fi1' : forall k, step_fits c1 (upd (nth_state next k init)) (halt (nth_state next k init))) by (intros k; apply Fi1, Fi). clear Fi1.
  assert (D1 : dep_ok prec emax (depression_constant c1)) by (unfold dep_ok; cbn; rewrite ED; exact Hd).
  assert (Ed : v_of_scl (FloatNum prec emax) (depression_constant c1) = d) by exact ED.
  assert (Et : forall x, v_ltb (FloatNum prec emax) (threshold c1) x = v_ltb (FloatNum prec emax) T x).
  { intros x. destruct (eager_R prec emax H2 _ He') as [[A _] _], (compiled_R prec emax H2 _ He) as [[B _] _]. now apply (ltb_same prec emax). }
  split; [|split].
  - destruct C as [C|C]; [right|left; exact C]. intros i Hi. destruct (ie_prob c1 next upd halt init W1 F1 Fi1' n i Hi) as (p & rr & k & (E1 & _)). fold r in E1.
    unfold halted. rewrite Hb. rewrite (halted_get _ _ _ E1). f_equal. apply C. eapply nth_error_In; eauto.
  - intros m Hm'. destruct (running_element c1 next upd halt init m W1 F1 Fi1' (M m Hm')) as (i & Hi & X). exists i. split; [exact Hi|]. rewrite Ed in X.
    etransitivity; [|exact X]. unfold is_over. etransitivity; [symmetry; exact (Et _)|]. f_equal. f_equal. symmetry. exact (stats_run_thr (N := FloatNum prec emax) _ _ d Et _ _).
  - intros i Hi.
    assert (Ws : loop_weights T d next halt init n i = loop_weights (threshold c1) (v_of_scl (FloatNum prec emax) (depression_constant c1)) next halt init n i).
    { unfold loop_weights. rewrite Ed. symmetry. exact (weights_thr (N := FloatNum prec emax) _ _ d Et _ _). }
    split.
    + eapply statistics_jit; [exact S|exact Hb|]. pose proof (ie_statistics H2 c1 next upd halt init He' D1 W1 F1 Fi1' Nn n i Hi) as X.
      unfold statistics_accurate in *. rewrite Ws. replace (B2R T) with (B2R (threshold c1 : binary_float prec emax)) by exact ET. exact X.
    + eapply accumulators_jit; [exact S|]. pose proof (ie_accumulators H2 c1 next upd halt init He' D1 W1 F1 Fi1' Nn n i Hi) as X.
      unfold accumulators_accurate in *. rewrite Ws. exact X.
Qed.
Print Assumptions C86_compiled_execution.
(** It does return, whatever the bound, when the updates fit the accumulators. *)
Theorem C86_compiled_execution_returns (prec emax : Z) {Hp : Prec_gt_0 prec} {Hm : Prec_lt_emax prec emax}
  (c0 : state (FloatNum prec emax)) next upd halt next' upd' halt' lazy lazy' init dep bound check :
  wf c0 -> fresh c0 -> accumulators c0 <> [] -> error_mode c0 = None -> lazy c0 init = Ok tt ->
  (forall k, step_fits c0 (upd (nth_state next k init)) (halt (nth_state next k init))) ->
  abstract_user (next init) = abstract_user init -> traces_as next upd halt next' upd' halt' ->
  exists c' u', execute_act_compiled (simple_layer c0 next upd halt lazy) (simple_layer (into_jit c0) next' upd' halt' lazy') init dep bound check = Ok (c', u').
Proof. intros W Fr Ne Em Hl Fi Au TA. now apply compiled_returns. Qed.
Print Assumptions C86_compiled_execution_returns.

(** ** The thresholds *)
(** How far the number compared with is from the [1 - epsilon] of the documentation. *)
Theorem C86_thresholds (prec emax : Z) {Hp : Prec_gt_0 prec} {Hm : Prec_lt_emax prec emax} (eps : pyfloat) :
  (2 <= prec <= 53)%Z -> eps_ok eps ->
  funit (eager_threshold prec emax eps) /\ funit (compiled_threshold prec emax eps) /\
  (Rabs (B2R (eager_threshold prec emax eps) - (1 - B2R eps)) <= bpow radix2 (- prec))%R /\
  (Rabs (B2R (compiled_threshold prec emax eps) - (1 - B2R eps)) <= bpow radix2 (-24) + bpow radix2 (- prec - 1))%R.
Proof.
  intros [H2 H53] He. destruct (eager_R prec emax H2 eps He) as [Fe Ee], (compiled_R prec emax H2 eps He) as [Fc Ec].
  split; [exact Fe|]. split; [exact Fc|]. destruct (trace_R eps He) as [[_ U2] E2]. destruct He as [_ B]. split.
  - rewrite Ee. set (x := (1 - B2R eps)%R). assert (U : (0 <= x <= 1)%R) by (unfold x; lra).
    set (y := round radix2 (SpecFloat.fexp 53 1024) ZnearestE x).
    assert (Uy : (0 <= y <= 1)%R) by (apply (rnd_unit 53 1024); [lia|exact U]).
    pose proof (rnd_error_unit 53 1024 ltac:(lia) x U) as E1. fold y in E1.
    pose proof (rnd_error_unit prec emax H2 y Uy) as E3.
    assert (G : (half_gap 53 <= half_gap prec)%R) by (unfold half_gap; apply bpow_le; lia).
    assert (D : (bpow radix2 (- prec) = half_gap prec + half_gap prec)%R).
    { unfold half_gap. replace (- prec)%Z with (1 + (- prec - 1))%Z by lia. rewrite bpow_plus. change (bpow radix2 1) with 2%R. replace (1 + (- prec - 1) - 1)%Z with (- prec - 1)%Z by lia. ring. }
    rewrite D. apply Rabs_le_inv in E1, E3. apply Rabs_le. lra.
  - rewrite Ec.
    assert (A1 := rnd_error_unit 24 128 ltac:(lia) (B2R eps) B).
    assert (B2 : (0 <= 1 - round radix2 (SpecFloat.fexp 24 128) ZnearestE (B2R eps) <= 1)%R) by (rewrite <- E2; lra).
    assert (A2 := rnd_error_unit 24 128 ltac:(lia) _ B2).
    assert (B3 := rnd_unit 24 128 ltac:(lia) _ B2).
    assert (A3 := rnd_error_unit prec emax H2 _ B3).
    unfold half_gap in *. change (- (24) - 1)%Z with (-25)%Z in *.
    assert (D : (bpow radix2 (-24) = bpow radix2 (-25) + bpow radix2 (-25))%R).
    { change (-24)%Z with (1 + -25)%Z. rewrite bpow_plus. change (bpow radix2 1) with 2%R. ring. }
    rewrite D. apply Rabs_le_inv in A1, A2, A3. apply Rabs_le. lra.
Qed.
Print Assumptions C86_thresholds.

(** ** A floor under the halting probabilities makes both stop by themselves *)
Section Floor.
  Context {prec emax : Z} {Hp : Prec_gt_0 prec} {Hm : Prec_lt_emax prec emax}.
  Notation F := (FloatNum prec emax).
  Notation bf := (binary_float prec emax).
  Lemma floor_halts (c0 : state F) next upd halt init n i :
    (2 <= prec <= 53)%Z -> eps_ok (epsilon c0) -> (lost_epsilon prec < B2R (epsilon c0 : pyfloat))%R -> dep_ok prec emax (depression_constant c0) ->
    wf c0 -> fresh c0 -> (forall k, step_fits c0 (upd (nth_state next k init)) (halt (nth_state next k init))) ->
    (forall k, Forall (fun v : bf => not_nan v /\ (bpow radix2 (- prec) <= B2R (offered (N := F) (f_of_py (depression_constant c0) : bf) v : bf))%R) (a_data (halt (nth_state next k init)))) ->
    i < size (batch_shape c0) -> (2 ^ (prec + 1) <= Z.of_nat n)%Z ->
    halted (run c0 (loop_calls next upd halt n init)) i = Some true.
  Proof.
    intros [H2 H53] He Hl Hd W Fr Fi G Hi Hn.
    assert (Nn : forall k, Forall not_nan (a_data (halt (nth_state next k init)))) by (intros k; eapply Forall_impl; [|apply G]; cbn; tauto).
    assert (P := Samples.fresh_wf_pending _ Fr). assert (Cw := ie_wf c0 next upd halt init Fi n).
    apply (C60_partial prec emax c0 (loop_calls next upd halt n init) i); try assumption; try (split; assumption).
    - apply (loop_no_reset next upd halt n init).
    - now apply fresh_unit.
    - clear Hn Cw. revert init Fi G Nn. induction n as [|n IH]; intros init Fi G Nn; [constructor|]. cbn [loop_calls]. apply Forall_app. split.
      + apply Forall_app. split.
        * apply Forall_forall. intros c Hc. apply in_map_iff in Hc as ([x t] & <- & _). constructor.
        * repeat constructor. cbn [value_of]. specialize (G 0). cbn [nth_state] in G. destruct (nth_error (a_data (halt init)) i) as [v|] eqn:E; [|constructor].
          constructor; [|constructor]. rewrite Forall_forall in G. exact (G v (nth_error_In _ _ E)).
      + apply IH; intros k; [exact (Fi (S k))|exact (G (S k))|exact (Nn (S k))].
    - rewrite (ie_returned c0 next upd halt init W Fr Fi), (ie_values c0 next upd halt init Fi) by exact Hi. unfold halting_inputs. rewrite map_length, seq_length. exact Hn.
  Qed.
End Floor.
Lemma all_halted_run {prec emax : Z} {Hp : Prec_gt_0 prec} {Hm : Prec_lt_emax prec emax} (c0 : state (FloatNum prec emax)) next upd halt init m :
  wf c0 -> fresh c0 -> (forall k, step_fits c0 (upd (nth_state next k init)) (halt (nth_state next k init))) ->
  (forall i, i < size (batch_shape c0) -> halted (run c0 (loop_calls next upd halt m init)) i = Some true) ->
  all_halted (run c0 (loop_calls next upd halt m init)).
Proof.
  intros W Fr Fi H p Hin. apply In_nth_error in Hin as [i Hpi].
  assert (P := Samples.fresh_wf_pending _ Fr). assert (Cw := ie_wf c0 next upd halt init Fi m). destruct (run_wf c0 _ W P Cw) as [W' _].
  assert (Hi : i < size (batch_shape c0)).
  { assert (X := sf_p _ _ (run_frame c0 _ W P Cw)). unfold sig in X. injection X as X _.
    assert (L : nth_error (a_data (probabilities (run c0 (loop_calls next upd halt m init)))) i <> None) by congruence.
    apply nth_error_Some in L. rewrite (wf_batch_len _ W') in L. unfold batch_shape in *. now rewrite X in L. }
  specialize (H i Hi). unfold halted in H. rewrite (halted_get _ _ _ Hpi) in H. now injection H.
Qed.
Theorem C86_stops_by_itself (prec emax : Z) {Hp : Prec_gt_0 prec} {Hm : Prec_lt_emax prec emax}
  (c0 : state (FloatNum prec emax)) next upd halt lazy init dep bound check c' u' :
  (2 <= prec <= 53)%Z -> eps_ok (epsilon c0) -> (lost_epsilon prec < B2R (epsilon c0 : pyfloat))%R -> dep_ok prec emax (depression_constant c0) ->
  wf c0 -> fresh c0 -> (forall k, step_fits c0 (upd (nth_state next k init)) (halt (nth_state next k init))) ->
  (forall k, Forall (fun v : binary_float prec emax => not_nan v /\
     (bpow radix2 (- prec) <= B2R (offered (N := FloatNum prec emax) (f_of_py (depression_constant c0) : binary_float prec emax) v : binary_float prec emax))%R)
     (a_data (halt (nth_state next k init)))) ->
  (2 ^ (prec + 1) <= bound)%Z ->
  execute_act (simple_layer c0 next upd halt lazy) init dep bound check = Ok (c', u') ->
  exists n, u' = nth_state next n init /\ (Z.of_nat n <= 2 ^ (prec + 1))%Z /\ forall i, i < size (batch_shape c0) -> halted c' i = Some true.
Proof.
  intros [H2 H53] He Hl Hd W Fr Fi G Hb H.
  assert (Nn : forall k, Forall not_nan (a_data (halt (nth_state next k init)))) by (intros k; eapply Forall_impl; [|apply G]; cbn; tauto).
  destruct (execute_history _ _ _ _ _ _ _ _ _ _ _ (wf_proper _ W) H) as (n & U & L & S & R & C & M). exists n. split; [exact U|].
  assert (P2 : (0 < 2 ^ (prec + 1))%Z) by (apply Z.pow_pos_nonneg; lia).
  assert (Full : forall m, (2 ^ (prec + 1) <= Z.of_nat m)%Z -> all_halted (run c0 (loop_calls next upd halt m init))).
  { intros m Hm'. apply all_halted_run; try assumption. intros i Hi. now apply floor_halts. }
  assert (Ln : (Z.of_nat n <= 2 ^ (prec + 1))%Z).
  { destruct (Z_le_gt_dec (Z.of_nat n) (2 ^ (prec + 1))) as [X|X]; [exact X|exfalso].
    apply (M (Z.to_nat (2 ^ (prec + 1)))); [lia|]. apply Full. rewrite Z2Nat.id; lia. }
  split; [exact Ln|]. intros i Hi.
  assert (A : all_halted c').
  { destruct C as [C|C]; [exact C|]. eapply all_halted_same; [apply same_state_sym; exact S|]. apply Full. lia. }
  destruct (ie_prob c0 next upd halt init W Fr Fi n i Hi) as (p & r & k & (E1 & _)). rewrite <- (ss_p _ _ S) in E1.
  unfold halted. rewrite (halted_get _ _ _ E1). f_equal. apply A. eapply nth_error_In; eauto.
Qed.
Print Assumptions C86_stops_by_itself.
Theorem C86_compiled_stops_by_itself (prec emax : Z) {Hp : Prec_gt_0 prec} {Hm : Prec_lt_emax prec emax}
  (c0 : state (FloatNum prec emax)) next upd halt next' upd' halt' lazy lazy' init dep bound check c' u' :
  (2 <= prec <= 53)%Z -> eps_ok (epsilon c0) ->
  (lost_epsilon prec + (bpow radix2 (-24) + bpow radix2 (- prec - 1)) < B2R (epsilon c0 : pyfloat))%R ->
  fnonneg (f_conv prec emax (trace_scalar (depression_constant c0))) ->
  wf c0 -> fresh c0 -> (forall k, step_fits c0 (upd (nth_state next k init)) (halt (nth_state next k init))) ->
  (forall k, Forall (fun v : binary_float prec emax => not_nan v /\
     (bpow radix2 (- prec) <= B2R (offered (N := FloatNum prec emax) (f_conv prec emax (trace_scalar (depression_constant c0))) v : binary_float prec emax))%R)
     (a_data (halt (nth_state next k init)))) ->
  traces_as next upd halt next' upd' halt' ->
  (2 ^ (prec + 1) <= bound)%Z ->
  execute_act_compiled (simple_layer c0 next upd halt lazy) (simple_layer (into_jit c0) next' upd' halt' lazy') init dep bound check = Ok (c', u') ->
  exists n, u' = jit_tree (nth_state next n init) /\ (Z.of_nat n <= 2 ^ (prec + 1))%Z /\ forall i, i < size (batch_shape c0) -> halted c' i = Some true.
Proof.
  intros [H2 H53] He Hl Hd W Fr Fi G TA Hb H.
  destruct (compiled_history prec emax c0 _ _ _ _ _ _ _ _ _ _ _ _ _ _ H2 He Hd W Fr TA H) as (n & eps' & dep' & [He' Hn'] & _ & ED & U & L & S & Hb' & C & M).
  exists n. split; [exact U|].
  set (c1 := with_settings c0 (eps' : scl (FloatNum prec emax)) dep') in *. set (r := run c1 (loop_calls next upd halt n init)) in *.
  destruct (other_settings c0 (eps' : scl (FloatNum prec emax)) dep') as (W1 & F1 & Fi1). specialize (W1 W). specialize (F1 Fr). fold c1 in W1, F1.
  assert (Fi1' : forall k, step_fits c1 (upd (nth_state next k init)) (halt (nth_state next k init))) by (intros k; apply Fi1, Fi). clear Fi1.
  assert (D1 : dep_ok prec emax (depression_constant c1)) by (unfold dep_ok; cbn; rewrite ED; exact Hd).
  assert (Hl1 : (lost_epsilon prec < B2R (epsilon c1 : pyfloat))%R) by (cbn; apply Rabs_le_inv in Hn'; lra).
  assert (P2 : (0 < 2 ^ (prec + 1))%Z) by (apply Z.pow_pos_nonneg; lia).
  assert (Full : forall m, (2 ^ (prec + 1) <= Z.of_nat m)%Z -> all_halted (run c1 (loop_calls next upd halt m init))).
  { intros m Hm'. apply all_halted_run; try assumption. intros i Hi. apply floor_halts; try assumption; [split; assumption|].
    intros k. change (f_of_py (depression_constant c1) : binary_float prec emax) with (f_of_py dep' : binary_float prec emax). rewrite ED. apply G. }
  assert (Ln : (Z.of_nat n <= 2 ^ (prec + 1))%Z).
  { destruct (Z_le_gt_dec (Z.of_nat n) (2 ^ (prec + 1))) as [X|X]; [exact X|exfalso].
    apply (M (Z.to_nat (2 ^ (prec + 1)))); [lia|]. apply Full. rewrite Z2Nat.id; lia. }
  split; [exact Ln|]. intros i Hi.
  assert (A : all_halted r) by (destruct C as [C|C]; [exact C|]; apply Full; lia).
  destruct (ie_prob c1 next upd halt init W1 F1 Fi1' n i Hi) as (p & rr & k & (E1 & _)). fold r in E1.
  unfold halted. rewrite Hb'. rewrite (halted_get _ _ _ E1). f_equal. apply A. eapply nth_error_In; eauto.
Qed.
Print Assumptions C86_compiled_stops_by_itself.

(** ** C86: cases *)
(** The layer of [lay32], over the controller with epsilon = 0.09, and the traced layer. *)
Definition updI {N} (u : tree (array N)) : dict (tree (array N)) := [("x", u)].
Definition haltI {N} (e : array N) (u : tree (array N)) : array N := match u with Leaf a => a | _ => e end.
Definition c09 : state N32 := ctl32 (py_div 9 100).
Definition initI : tree (array N32) := Leaf (arr32 [2] [f32 91 100; f32 1 3]).
Definition eagerI := execute_act (simple_layer c09 idU updI (haltI (arr32 [2] [])) (fun _ _ => Ok tt)) initI (py_div 1 1 : scl N32).
Definition compiledI := execute_act_compiled (simple_layer c09 idU updI (haltI (arr32 [2] [])) (fun _ _ => Ok tt))
  (simple_layer (into_jit c09) (fun u => u) updI (haltI (jit_array (arr32 [2] []))) (fun _ _ => Ok tt)) initI (py_div 1 1).
Lemma idU_fits k : step_fits c09 (updI (nth_state idU k initI)) (haltI (arr32 [2] []) (nth_state idU k initI)).
Proof.
  rewrite idU_all. split; [repeat constructor; cbn; tauto|]. split; [intros x; change (dkeys (accumulators c09)) with ["x"]; reflexivity|].
  split; [|repeat split]. intros x t v Ht Hv. cbn [updI dget] in Hv. destruct (String.eqb_spec x "x") as [->|]; [|discriminate].
  injection Hv as <-. change (Some (Leaf (arr32 [2] [f32 0 1; f32 0 1])) = Some t) in Ht. apply GravesFacts.Some_inj in Ht. subst t.
  split; [reflexivity|]. split; repeat constructor.
Qed.
Lemma power_by_computation {prec emax : Z} (x : binary_float prec emax) (k : nat) m e :
  B2SF x = SpecFloat.S754_finite false m e -> Zpos m = Z.pow 2 (Z.of_nat k) -> B2R x = bpow radix2 (Z.of_nat k + e).
Proof.
  intros E P. rewrite <- SF2R_B2SF, E. cbn [SF2R]. unfold F2R. cbn [Fnum Fexp SpecFloat.cond_Zopp cond_Zopp]. rewrite P, bpow_plus. f_equal.
  change 2%Z with (radix_val radix2). apply IZR_Zpower. lia.
Qed.
(** Both executions meet the hypotheses. The first element halts after two iterations when Python runs the
    loop and after one when it is compiled: the thresholds differ by one unit in the last place. *)
Example C86_case : eps_ok (epsilon c09) /\ (lost_epsilon 24 + (bpow radix2 (-24) + bpow radix2 (-24 - 1)) < B2R (epsilon c09 : pyfloat))%R /\
  dep_ok 24 128 (depression_constant c09) /\ fnonneg (f_conv 24 128 (trace_scalar (depression_constant c09))) /\ wf c09 /\ fresh c09 /\
  (forall k, step_fits c09 (updI (nth_state idU k initI)) (haltI (arr32 [2] []) (nth_state idU k initI))) /\
  (forall k, Forall (fun v : binary_float 24 128 => not_nan v /\
     (bpow radix2 (- 24) <= B2R (offered (N := N32) (f_of_py (depression_constant c09) : binary_float 24 128) v : binary_float 24 128))%R /\
     (bpow radix2 (- 24) <= B2R (offered (N := N32) (f_conv 24 128 (trace_scalar (depression_constant c09))) v : binary_float 24 128))%R)
     (a_data (haltI (arr32 [2] []) (nth_state idU k initI)))) /\
  traces_as (prec := 24) (emax := 128) idU updI (haltI (arr32 [2] [])) (fun u => u) updI (haltI (jit_array (arr32 [2] []))) /\
  accumulators c09 <> [] /\ error_mode c09 = None /\ abstract_user (idU initI) = abstract_user initI /\
  match eagerI 50 true, compiledI 50 true, compiledI 2 true with
  | Ok (c, _), Ok (c', _), Ok (c2, _) =>
      bits (iterations c) = [B2SF (f32 2 1); B2SF (f32 3 1)] /\ bitsJ (iterations c') = [B2SF (f32 1 1); B2SF (f32 3 1)] /\
      bits (probabilities c) = [B2SF (f32 1 1); B2SF (f32 1 1)] /\ bitsJ (probabilities c2) = [B2SF (f32 1 1); B2SF (f32 2 3)] /\
      B2SF (eager_threshold 24 128 (epsilon c09)) = B2SF (f32 91 100) /\ B2SF (compiled_threshold 24 128 (epsilon c09)) <> B2SF (f32 91 100)
  | _, _, _ => False
  end.
Proof.
  assert (Se : BuilderFacts.eps_sane (N := N32) (py_div 9 100)) by (split; vm_compute; reflexivity).
  destruct (ctl32_ok _ Se) as (W & F & P). fold c09 in W, F, P.
  split; [apply unit_by_computation; vm_compute; reflexivity|]. split.
  { assert (L : (B2R (py_div 1 100) <= B2R (epsilon c09 : pyfloat))%R) by (apply leb_real; vm_compute; reflexivity).
    assert (X : (B2R (py_div 1 1024) <= B2R (py_div 1 100))%R) by (apply leb_real; vm_compute; reflexivity).
    assert (Y : B2R (py_div 1 1024) = bpow radix2 (-10)) by (apply (power_by_computation _ 52 4503599627370496 (-62)); vm_compute; reflexivity).
    assert (A : (bpow radix2 (-24 - 1) <= bpow radix2 (-13))%R) by (apply bpow_le; lia). assert (B : (bpow radix2 (-54) <= bpow radix2 (-13))%R) by (apply bpow_le; lia).
    assert (C : (bpow radix2 (-24) <= bpow radix2 (-13))%R) by (apply bpow_le; lia).
    assert (D : (bpow radix2 (-10) = 8 * bpow radix2 (-13))%R) by (cbn; lra). assert (E : (0 < bpow radix2 (-13))%R) by apply bpow_gt_0.
    unfold lost_epsilon. change ((24 =? 53)%Z) with false. cbv iota. change (- (24) - 1)%Z with (-24 - 1)%Z. lra. }
  split; [split; [vm_compute; reflexivity|apply (leb_real (f_zero (prec := 24) (emax := 128))); vm_compute; reflexivity]|].
  split; [split; [vm_compute; reflexivity|apply (leb_real (f_zero (prec := 24) (emax := 128))); vm_compute; reflexivity]|].
  split; [exact W|]. split; [exact F|]. split; [exact idU_fits|]. split.
  { assert (Y : B2R (f32 1 1024) = bpow radix2 (-10)) by (apply (power_by_computation _ 23 8388608 (-33)); vm_compute; reflexivity).
    assert (C : (bpow radix2 (- 24) <= bpow radix2 (-10))%R) by (apply bpow_le; lia).
    intros k. rewrite idU_all. change (a_data (haltI (arr32 [2] []) initI)) with [f32 91 100; f32 1 3]. constructor; [|constructor; [|constructor]]; (split; [vm_compute; reflexivity|]);
      split; (eapply Rle_trans; [exact C|rewrite <- Y; apply leb_real; vm_compute; reflexivity]). }
  split; [intros u; split; [reflexivity|]; split; [reflexivity|]; destruct u; reflexivity|].
  split; [discriminate|]. split; [reflexivity|]. split; [reflexivity|].
  vm_compute. repeat (split; [reflexivity|]). discriminate.
Qed.
