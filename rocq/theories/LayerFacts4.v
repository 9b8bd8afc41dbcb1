(** * execute_act of docstring layers, from start to end. *)
From Coq Require Import QArith Qcanon.
From Verif Require Import Base PyTree Tensor Num Utils States Controller Layers Wf Spec History ElementSpec StateSpec LayerSpec LoopSpec.
From Verif Require Import BaseFacts PyTreeFacts TensorFacts ControllerFacts IterateFacts ResetFacts HistoryFacts StateFacts LayerFacts LayerFacts2 LayerFacts3.
From Verif Require Import QcFacts SpecFacts GravesFacts ExactFacts ExactFacts2.
Close Scope Qc_scope. Close Scope Q_scope. Open Scope string_scope. Open Scope list_scope. Open Scope nat_scope.

Section Any.
  Context {N : numsys}.
  Notation st := (state N).
  Notation tr := (tree (array N)).
  Context (c0 : st) (next : tr -> tr) (upd : tr -> dict tr) (halt : tr -> array N) (lazy : st -> tr -> res unit).
  Notation l := (simple_layer c0 next upd halt lazy).
  Notation calls := (loop_calls next upd halt).

  Lemma all_halted_same (c c' : st) : same_state c c' -> all_halted c -> all_halted c'.
  Proof. intros S. rewrite <- !all_halted_iff. now rewrite (completely_halted_same _ _ S). Qed.

  Lemma turns_history (c d : st) u n c' u' : proper c -> proper d -> same_state c d -> turns l c u n c' u' ->
    u' = nth_state next n u /\
    (exists d', strictly d (calls n u) = Ok d' /\ same_state c' d') /\
    forall m, m < n -> exists dm, strictly d (calls m u) = Ok dm /\ ~ all_halted dm.
  Proof.
    intros P Pd S H. revert d P Pd S.
    induction H as [c u c' E|c c1 u r c2 u1 n c3 u2 E P0 Nh Hr Hh Ht IH]; intros d P Pd S.
    - split; [reflexivity|]. split; [|intros m Hm; lia]. exists d. split; [reflexivity|].
      eapply same_state_trans; [apply same_state_sym; exact E|exact S].
    - assert (S0 : same_state c1 d) by (eapply same_state_trans; [apply same_state_sym; exact E|exact S]).
      assert (X := strictly_same c1 d (simple_calls upd halt u) (conj P0 (conj Pd S0))). cbn in Hr.
      destruct (strictly c1 (simple_calls upd halt u)) as [c1'|] eqn:E1; [|discriminate]. injection Hr as <-.
      cbn in Hh. destruct Hh as [-> ->]. destruct (strictly d (simple_calls upd halt u)) as [d1|] eqn:E2; [|destruct X].
      destruct X as (X1 & X2 & X3). destruct (IH d1 X1 X2 X3) as (U & (d' & D & Sd) & M). split; [exact U|]. split.
      + exists d'. split; [|exact Sd]. cbn [loop_calls]. rewrite strictly_app, E2. exact D.
      + intros [|m] Hm.
        * exists d. split; [reflexivity|]. intros A. apply Nh. apply all_halted_same with d; [now apply same_state_sym|exact A].
        * destruct (M m) as (dm & Dm & Nm); [lia|]. exists dm. split; [|exact Nm]. cbn [loop_calls]. now rewrite strictly_app, E2.
  Qed.

  Theorem execute_history init dep bound check (c' : st) u' : proper c0 ->
    execute_act l init dep bound check = Ok (c', u') ->
    exists n, u' = nth_state next n init /\ (Z.of_nat n <= Z.max 0 bound)%Z /\
      same_state c' (run c0 (calls n init)) /\ returned c0 (calls n init) = calls n init /\
      (all_halted c' \/ Z.of_nat n = Z.max 0 bound) /\
      forall m, m < n -> ~ all_halted (run c0 (calls m init)).
  Proof.
    intros P H. assert (T := simple_typed c0 next upd halt lazy P).
    destruct (execute_inv _ _ _ _ _ _ _ H) as (c & m' & M & _ & _ & _ & _ & W). injection M as <-.
    destruct (while_total (run_layer_adapter check l) (c0, init, mkM 0 bound) (Z.to_nat bound) (adapter_counts check l)) as (n & R & L).
    { cbn. lia. }
    rewrite W in R.
    destruct (while_turns _ _ _ _ _ _ _ _ _ _ T P R eq_refl) as (A & _ & _ & _ & B & C). cbn [num_iterations max_num_iterations] in B, C.
    destruct (turns_history c0 c0 init n c' u' P P (same_state_refl c0) A) as (U & (d & D & S) & K).
    destruct (strictly_run _ _ _ D) as [R1 R2]. exists n. split; [exact U|]. cbn in L. split; [lia|].
    split; [now rewrite R1|]. split; [exact R2|]. split.
    - destruct C as [C|C]; [left; now apply all_halted_iff|right; lia].
    - intros m Hm. destruct (K m Hm) as (dm & Dm & Nm). destruct (strictly_run _ _ _ Dm) as [-> _]. exact Nm.
  Qed.

  (** *** A docstring layer whose updates fit never raises *)
  Notation fits_all c u := (forall k, step_fits c (upd (nth_state next k u)) (halt (nth_state next k u))).
  Lemma simple_adapter_ok check (c d : st) u m : proper c -> proper d -> same_state d c -> wf d -> wf_pending d -> all_none d ->
    accumulators d <> [] -> fits_all d u ->
    exists c1 d1, run_layer_adapter check l (canonical c, u, m) = Ok (c1, next u, increase_counter m) /\
      proper c1 /\ proper d1 /\ same_state d1 c1 /\ wf d1 /\ wf_pending d1 /\ all_none d1 /\ accumulators d1 <> [] /\ fits_all d1 (next u).
  Proof.
    intros P Pd S W Wp A Ne F. assert (P0 := canonical_proper c P).
    assert (S0 : same_state d (canonical c)) by (eapply same_state_trans; [exact S|now apply canonical_same]).
    destruct (simple_step_ok d upd halt u W Wp A (F 0)) as (d1 & E & W1 & P1 & A1 & Fr).
    assert (X := strictly_same d (canonical c) (simple_calls upd halt u) (conj Pd (conj P0 S0))). rewrite E in X.
    destruct (strictly (canonical c) (simple_calls upd halt u)) as [c1|] eqn:E1; [|destruct X]. destruct X as (X1 & X2 & X3).
    exists c1, d1. split.
    { unfold run_layer_adapter. erewrite wrapped_pass with (d := d) (r := RTuple [ICtrl d1; IObj (next u)]) (r' := RTuple [ICtrl c1; IObj (next u)]); [reflexivity|exact P0|exact S0| | | |].
      - cbn. now rewrite E1.
      - cbn. now rewrite E.
      - repeat constructor; apply X3.
      - intros _. now apply simple_contract. }
    repeat (split; [assumption|]). split; [eapply accs_frame; eauto|]. intros k. exact (fits_frame _ _ _ _ W Fr (F (Datatypes.S k))).
  Qed.
  Lemma simple_while_ok check fuel : forall (c d : st) u m, remaining (c, u, m) <= fuel ->
    proper c -> proper d -> same_state d c -> wf d -> wf_pending d -> all_none d -> accumulators d <> [] -> fits_all d u ->
    exists y, while_fuel fuel (run_layer_adapter check l) (c, u, m) = Ok y.
  Proof.
    induction fuel as [|fuel IH]; intros c d u m L P Pd S W Wp A Ne F; cbn [while_fuel]; rewrite rebuild_ok; cbn [bind];
      destruct (is_act_not_complete (canonical c, u, m)) eqn:E; eauto;
      unfold is_act_not_complete in E; apply andb_prop in E as [_ E]; apply Z.ltb_lt in E; unfold remaining in *; [lia|].
    destruct (simple_adapter_ok check c d u m P Pd S W Wp A Ne F) as (c1 & d1 & B & H1 & H2 & H3 & H4 & H5 & H6 & H7 & H8).
    rewrite B. cbn [bind]. apply (IH c1 d1); auto. destruct m as [k0 mx]. unfold increase_counter. cbn [num_iterations max_num_iterations] in *. lia.
  Qed.
  Theorem simple_returns init dep bound check : wf c0 -> wf_pending c0 -> all_none c0 -> accumulators c0 <> [] -> error_mode c0 = None ->
    lazy c0 init = Ok tt -> fits_all c0 init -> abstract_user (next init) = abstract_user init ->
    exists c' u', execute_act l init dep bound check = Ok (c', u').
  Proof.
    intros W P A Ne Em Hl F Au. assert (Pr := wf_proper _ W). unfold execute_act, wrapped_make_controller.
    change (l_make_controller l init dep) with (Ok (MCtrl c0)). cbn [bind].
    assert (V : (if check then validate_made (MCtrl c0) else Ok tt) = Ok tt).
    { destruct check; [|reflexivity]. cbn. destruct (accumulators c0); [contradiction|reflexivity]. }
    rewrite V. cbn [bind]. change (l_setup_lazy l c0 init) with (lazy c0 init). rewrite Hl. cbn [bind]. unfold while_loop. rewrite (leaves_ok_none c0 Em). cbn [guard bind]. rewrite rebuild_ok. cbn [bind].
    destruct (simple_adapter_ok check c0 c0 init (mkM 0 bound) Pr Pr (same_state_refl c0) W P A Ne F) as (c1 & d1 & B & H1 & H2 & H3 & H4 & H5 & H6 & H7 & H8).
    rewrite B. cbn [bind].
    destruct (simple_step_ok c0 upd halt init W P A (F 0)) as (e1 & E & We & Pe & Ae & Fr).
    rewrite same_abstract_intro; auto.
    2:{ assert (Q := canonical_proper c0 Pr). assert (Y := strictly_same c0 (canonical c0) (simple_calls upd halt init) (conj Pr (conj Q (canonical_same c0 Pr)))).
        rewrite E in Y. unfold run_layer_adapter in B. destruct (wrapped_run_iteration check _ (canonical c0) init) as [r|] eqn:Ew; cbn [bind] in B; [|discriminate].
        apply wrapped_ok in Ew. cbn in Ew. destruct (strictly (canonical c0) (simple_calls upd halt init)) as [c2|]; [|destruct Y]. injection Ew as <-.
        cbn in B. injection B as <-. destruct Y as (Y1 & Y2 & Y3).
        rewrite <- (frame_abstract c0 e1 W Fr A Ae). symmetry; now apply abstract_same. }
    cbn [guard bind].
    destruct (simple_while_ok check (remaining (c0, init, mkM 0 bound)) c0 c0 init (mkM 0 bound) (le_n _) Pr Pr (same_state_refl c0) W P A Ne F) as [[[c3 u3] m3] E3].
    rewrite E3. cbn [bind]. eauto.
  Qed.
End Any.

(** ** What the calls of a docstring layer hand to one element *)
Section Logs.
  Context {N : numsys}.
  Notation tr := (tree (array N)).
  Context (next : tr -> tr) (upd : tr -> dict tr) (halt : tr -> array N) (rs : list (val N) -> bool) (i : nat).

  Lemma log_caches (d : dict tr) pend past :
    fold_left (log_step rs i) (map (fun kv => CCache (fst kv) (snd kv)) d) (mkLog pend past) = mkLog (rev d ++ pend) past.
  Proof.
    revert pend. induction d as [|[k t] d IH]; intros pend; [reflexivity|]. cbn [map fold_left log_step fst snd]. rewrite IH. cbn [rev History.pending History.past].
    now rewrite <- app_assoc.
  Qed.
  Lemma log_loop n : forall u past (df : val N),
    (forall k, i < length (a_data (halt (nth_state next k u)))) ->
    fold_left (log_step rs i) (loop_calls next upd halt n u) (mkLog [] past) =
    mkLog [] (past ++ map (fun k => (nth i (a_data (halt (nth_state next k u))) df, rev (upd (nth_state next k u)))) (seq 0 n)).
  Proof.
    induction n as [|n IH]; intros u past df H; cbn [loop_calls seq map]; [now rewrite app_nil_r|].
    unfold simple_calls. rewrite !fold_left_app, log_caches. cbn [fold_left log_step History.pending History.past]. rewrite app_nil_r.
    assert (H0 := nth_error_nth' (a_data (halt u)) df (H 0)). rewrite H0. rewrite (IH (next u) _ df); [|intros k; exact (H (S k))]. f_equal. rewrite <- app_assoc. f_equal.
    cbn [app nth_state]. f_equal. rewrite <- seq_shift, map_map. reflexivity.
  Qed.
  Lemma update_at_rev k l j (d : dict tr) : NoDup (dkeys d) -> update_at k l j (rev d) = update_at k l j d.
  Proof.
    intros ND. unfold update_at. replace (dget k (rev d)) with (dget k d); [reflexivity|].
    assert (ND' : NoDup (dkeys (rev d))). { unfold dkeys in *. rewrite map_rev. now apply NoDup_rev. }
    destruct (dget k d) as [t|] eqn:E.
    - symmetry. apply dget_nodup; [exact ND'|]. apply -> in_rev. now apply dget_In.
    - symmetry. apply dget_none. apply dget_none in E. unfold dkeys in *. rewrite map_rev. now rewrite <- in_rev.
  Qed.
End Logs.

(** ** The exact instance *)

Section Exact.
  Notation st := (state QcNum).
  Notation tr := (tree (array QcNum)).
  Context (c0 : st) (next : tr -> tr) (upd : tr -> dict tr) (halt : tr -> array QcNum).
  Notation calls := (loop_calls next upd halt).
  Context (init : tr) (W : wf c0) (F : fresh c0)
    (Fi : forall k, step_fits c0 (upd (nth_state next k init)) (halt (nth_state next k init))).

  Lemma loop_log n i : i < size (batch_shape c0) -> returned c0 (calls n init) = calls n init ->
    past (element_log c0 i (calls n init)) =
    map (fun k => (nth i (a_data (halt (nth_state next k init))) 0%Qc, rev (upd (nth_state next k init)))) (seq 0 n).
  Proof.
    intros Hi R. unfold element_log. rewrite R. unfold log_of. rewrite (log_loop next upd halt _ i n init [] 0%Qc); [reflexivity|].
    intros k. destruct (Fi k) as (_ & _ & _ & A & S & _). unfold awf, twf in A. unfold a_data, a_shape in *. rewrite A, S. exact Hi.
  Qed.
  Lemma loop_hs n i : i < size (batch_shape c0) -> returned c0 (calls n init) = calls n init ->
    element_hs c0 i (calls n init) = offers (depression_constant c0) next halt init i n.
  Proof. intros Hi R. unfold element_hs. rewrite loop_log by assumption. unfold effective, offers. rewrite !map_map. reflexivity. Qed.
  Lemma loop_supplies n i k l j us : i < size (batch_shape c0) -> returned c0 (calls n init) = calls n init ->
    map (fun e => update_at (N := QcNum) k l j (snd e)) (past (element_log c0 i (calls n init))) = map Some us ->
    supplies next upd init k l j n us.
  Proof.
    intros Hi R. rewrite loop_log by assumption. rewrite map_map. cbn [snd]. unfold supplies. intros E. etransitivity; [|exact E]. apply map_ext. intros m.
    symmetry. apply update_at_rev. apply (Fi m).
  Qed.
  Lemma loop_wf n : Forall call_wf (calls n init).
  Proof. eapply calls_of_wf; eauto. Qed.
  Lemma loop_returned n : returned c0 (calls n init) = calls n init.
  Proof.
    assert (A : all_none c0) by (destruct F as (_ & _ & _ & _ & F'); exact F').
    destruct (calls_of_ok next upd halt n c0 init W (fresh_pending _ F) A Fi) as [c' Hs]. exact (proj2 (strictly_run _ _ _ Hs)).
  Qed.

  Context (He : (0 < epsilon c0)%Qc) (He1 : (epsilon c0 <= 1)%Qc) (Hd : (0 <= depression_constant c0)%Qc).
  Notation offers' := (offers (depression_constant c0) next halt init).
  Lemma loop_frame n : same_frame c0 (run c0 (calls n init)).
  Proof. apply run_frame; [exact W|exact (fresh_pending _ F)|exact (loop_wf n)]. Qed.
  Lemma loop_prob n i : i < size (batch_shape c0) ->
    exists p, nth_error (a_data (probabilities (run c0 (calls n init)))) i = Some p.
  Proof.
    intros Hi. apply nth_error_lt. destruct (run_wf c0 (calls n init) W (fresh_pending _ F) (loop_wf n)) as [W' _].
    rewrite (wf_batch_len _ W'). assert (X := sf_p _ _ (loop_frame n)). unfold sig in X. injection X as X _. unfold batch_shape in *. now rewrite X.
  Qed.
  Lemma loop_all_halted n :
    all_halted (run c0 (calls n init)) <-> forall i, i < size (batch_shape c0) -> act_halted (1 - epsilon c0)%Qc (offers' i n) = true.
  Proof.
    assert (G := graves_halted c0 (calls n init) He He1 Hd W F (loop_wf n)).
    rewrite <- all_halted_iff, completely_halted_iff. split.
    - intros H i Hi. destruct (loop_prob n i Hi) as [p Hp]. rewrite <- (loop_hs n i Hi (loop_returned n)).
      assert (X := halted_get _ _ _ Hp). specialize (G i _ X). etransitivity; [symmetry; exact G|]. exact (H i _ X).
    - intros H i b Hb. assert (Hi : i < size (batch_shape c0)).
      { destruct (run_wf c0 (calls n init) W (fresh_pending _ F) (loop_wf n)) as [W' _].
        assert (X := sf_p _ _ (loop_frame n)). unfold sig in X. injection X as X _. unfold batch_shape. rewrite <- X.
        change (a_shape (probabilities (run c0 (calls n init)))) with (batch_shape (run c0 (calls n init))).
        rewrite <- (halted_length _ W'). apply nth_error_Some. congruence. }
      specialize (G i b Hb). etransitivity; [exact G|]. rewrite (loop_hs n i Hi (loop_returned n)). exact (H i Hi).
  Qed.
End Exact.
