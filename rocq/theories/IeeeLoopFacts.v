(** * Facts: docstring layers in IEEE-754 arithmetic (for PropsIeeeLoop.v). *)
From Coq Require Import ZArith Reals Lia Lra Psatz.
From Flocq Require Import Core BinarySingleNaN.
From Verif Require Import Base PyTree Tensor Num FloatNum FloatSpec Utils States Controller Builder Layers
  Wf Spec History ElementSpec ScalarSpec BuilderSpec StateSpec LayerSpec Jit JitSpec IeeeLoopSpec.
From Verif Require Import BaseFacts ControllerFacts IterateFacts HistoryFacts AgreeFacts GravesFacts ExactFacts ElementFacts StateFacts LayerFacts LayerFacts2 LayerFacts3 LayerFacts4 LoopFacts
  ScalarFacts ScriptFacts FloatFacts FloatFacts2 FloatFacts3 FloatFacts4 FloatFacts5.
From Verif Require Import PropsController PropsScalar PropsFloat PropsRounding PropsLoopFloat.
Close Scope R_scope. Close Scope Z_scope. Open Scope string_scope. Open Scope list_scope. Open Scope nat_scope.

(** ** The script of one element *)
Section Scripts.
  Context {N : numsys}.
  Notation tr := (tree (array N)).
  Context (next : tr -> tr) (upd : tr -> dict tr) (halt : tr -> array N) (i : nat).

  Lemma script_caches (d : dict tr) pend ls :
    fold_left (script_step i) (map (fun kv => CCache (fst kv) (snd kv)) d) (mkScript pend ls) = mkScript (rev d ++ pend) ls.
  Proof.
    revert pend. induction d as [|[k t] d IH]; intros pend; [reflexivity|]. cbn [map fold_left script_step fst snd]. rewrite IH. cbn [rev waiting lines].
    now rewrite <- app_assoc.
  Qed.
  Lemma script_loop n : forall u ls (df : val N),
    (forall k, i < length (a_data (halt (nth_state next k u)))) ->
    fold_left (script_step i) (loop_calls next upd halt n u) (mkScript [] ls) =
    mkScript [] (ls ++ map (fun k => Some (nth i (a_data (halt (nth_state next k u))) df, rev (upd (nth_state next k u)))) (seq 0 n)).
  Proof.
    induction n as [|n IH]; intros u ls df H; cbn [loop_calls seq map]; [now rewrite app_nil_r|].
    unfold simple_calls. rewrite !fold_left_app, script_caches. cbn [fold_left script_step waiting lines]. rewrite app_nil_r.
    assert (H0 := nth_error_nth' (a_data (halt u)) df (H 0)). rewrite H0. rewrite (IH (next u) _ df); [|intros k; exact (H (S k))]. f_equal. rewrite <- app_assoc. f_equal.
    cbn [app nth_state]. f_equal. rewrite <- seq_shift, map_map. reflexivity.
  Qed.
  Lemma loop_values n u (df : val N) : (forall k, i < length (a_data (halt (nth_state next k u)))) ->
    values_of i (loop_calls next upd halt n u) = map (fun k => nth i (a_data (halt (nth_state next k u))) df) (seq 0 n).
  Proof.
    intros H. assert (E := stats_program_values i _ (loop_no_reset next upd halt n u)). unfold stats_program, script_of in E.
    rewrite (script_loop n u [] df H) in E. cbn [app lines] in E. rewrite map_map in E. cbn [option_map fst] in E.
    revert E. generalize (values_of i (loop_calls next upd halt n u)). generalize (seq 0 n). intros ks. induction ks as [|k ks IH]; intros [|v vs] E; try discriminate; [reflexivity|].
    cbn [map] in E. injection E as E1 E2. cbn [map]. f_equal; [congruence|]. now apply IH.
  Qed.
  Lemma loop_program n u (df : val N) k l j prog : (forall m, i < length (a_data (halt (nth_state next m u)))) ->
    (forall m, NoDup (dkeys (upd (nth_state next m u)))) ->
    value_program i k l j (loop_calls next upd halt n u) prog ->
    exists us, map (fun m => update_at k l j (upd (nth_state next m u))) (seq 0 n) = map Some us /\
      prog = map Some (combine (map (fun m => nth i (a_data (halt (nth_state next m u))) df) (seq 0 n)) us).
  Proof.
    intros H ND V. unfold value_program, script_of in V. rewrite (script_loop n u [] df H) in V. cbn [app lines] in V. rewrite map_map in V. cbn [option_map fst snd] in V.
    revert prog V. generalize (seq 0 n). intros ks. induction ks as [|m ks IH]; intros [|e prog] V; try discriminate; [exists []; auto|].
    cbn [map] in V. injection V as V1 V2. destruct (IH prog V2) as (us & E1 & E2). destruct e as [[v w]|]; cbn [option_map fst snd] in V1; [|discriminate].
    injection V1 as V1 V3. rewrite update_at_rev in V3 by apply ND. exists (w :: us). cbn [map combine]. split; congruence.
  Qed.
End Scripts.

(** ** The scalar program, when the threshold is only compared with *)
Section SameThreshold.
  Context {N : numsys} (T T' d : val N) (E : forall x, v_ltb N T x = v_ltb N T' x).
  Lemma used_thr x v : used T d x v = used T' d x v.
  Proof. unfold used, goes_over. now rewrite E. Qed.
  Lemma step_thr x v : stats_step T d x v = stats_step T' d x v.
  Proof. unfold stats_step, goes_over, is_over. now rewrite used_thr, !E. Qed.
  Lemma stats_run_thr vs : forall x, stats_run T d x (map Some vs) = stats_run T' d x (map Some vs).
  Proof. induction vs as [|v vs IH]; intros x; [reflexivity|]. cbn [map stats_run fold_left stats_event]. rewrite step_thr. apply IH. Qed.
  Lemma weights_thr vs : forall x, ScalarSpec.weights T d x vs = ScalarSpec.weights T' d x vs.
  Proof. induction vs as [|v vs IH]; intros x; [reflexivity|]. cbn [ScalarSpec.weights]. unfold is_over. now rewrite E, used_thr, step_thr, IH. Qed.
End SameThreshold.

Section Runs.
  Context {prec emax : Z} {Hp : Prec_gt_0 prec} {Hm : Prec_lt_emax prec emax} (H2 : (2 <= prec)%Z).
  Notation F := (FloatNum prec emax).
  Notation bf := (binary_float prec emax).
  Notation tr := (tree (array F)).

  Section Scalar.
    Context (s : state F) (He : eps_ok (epsilon s)) (Hd : dep_ok prec emax (depression_constant s)).
    Notation thr := (threshold s).
    Notation dep := (v_of_scl F (depression_constant s)).
    Notation after x vs := (stats_run thr dep x (map Some vs)).
    Notation okv v := (is_nan (v : bf) = false).
    Lemma weights_over vs : forall x, sane prec emax s x -> Forall (fun v : val F => okv v) vs -> is_over thr x = true -> ScalarSpec.weights thr dep x vs = [].
    Proof.
      induction vs as [|v vs IH]; intros x S Fo O; [reflexivity|]. inversion Fo; subst. cbn [ScalarSpec.weights]. rewrite O. cbn [app].
      apply IH; [now apply sane_step|assumption|now apply over_step].
    Qed.
    Lemma weights_length vs : forall x, length (ScalarSpec.weights thr dep x vs) <= length vs.
    Proof. induction vs as [|v vs IH]; intros x; [cbn; lia|]. cbn [ScalarSpec.weights length]. rewrite app_length. specialize (IH (stats_step thr dep x v)). destruct (is_over thr x); cbn [length]; lia. Qed.
    Lemma weights_full vs : forall x, sane prec emax s x -> Forall (fun v : val F => okv v) vs -> is_over thr (after x vs) = false ->
      length (ScalarSpec.weights thr dep x vs) = length vs.
    Proof.
      induction vs as [|v vs IH]; intros x S Fo O; [reflexivity|]. inversion Fo; subst. cbn [ScalarSpec.weights length]. rewrite app_length.
      destruct (is_over thr x) eqn:Ox.
      - assert (O' := over_run prec emax H2 s He Hd (v :: vs) x S Fo Ox). assert (X : true = false) by (etransitivity; [symmetry; exact O'|exact O]). discriminate.
      - cbn [length plus]. f_equal. apply IH; [now apply sane_step|assumption|exact O].
    Qed.
    Lemma weights_count vs : forall (x : stats F) k, (0 <= k <= 2 ^ prec)%Z -> FloatSpec.counts (steps x : bf) k -> sane prec emax s x -> Forall (fun v : val F => okv v) vs ->
      FloatSpec.counts (steps (after x vs) : bf) (Z.min (k + Z.of_nat (length (ScalarSpec.weights thr dep x vs))) (2 ^ prec)).
    Proof.
      induction vs as [|v vs IH]; intros x k Hk C S Fo.
      - cbn [map stats_run fold_left ScalarSpec.weights length]. rewrite Z.min_l by lia. now rewrite Z.add_0_r.
      - inversion Fo; subst. change (after x (v :: vs)) with (after (stats_step thr dep x v) vs). cbn [ScalarSpec.weights].
        assert (S' : sane prec emax s (stats_step thr dep x v)) by (now apply sane_step).
        destruct (is_over thr x) eqn:Ox; cbn [app length].
        + apply IH; auto. unfold stats_step. cbn [steps]. now rewrite Ox.
        + assert (C' : FloatSpec.counts (steps (stats_step thr dep x v) : bf) (Z.min (k + 1) (2 ^ prec))).
          { unfold stats_step. cbn [steps]. rewrite Ox. now apply count_step. }
          assert (P2 : (0 < 2 ^ prec)%Z) by (apply Z.pow_pos_nonneg; lia).
          specialize (IH _ (Z.min (k + 1) (2 ^ prec)) ltac:(lia) C' S' ltac:(assumption)).
          match goal with |- FloatSpec.counts _ ?a => match type of IH with FloatSpec.counts _ ?b => replace a with b by lia end end. exact IH.
    Qed.
    Lemma shares_combine vs : forall us x, sane prec emax s x -> Forall (fun v : val F => okv v) vs -> length us = length vs ->
      ScalarSpec.shares thr dep x (combine vs us) = combine (ScalarSpec.weights thr dep x vs) us.
    Proof.
      induction vs as [|v vs IH]; intros [|u us] x S Fo L; try discriminate; [reflexivity|]. inversion Fo; subst.
      assert (S' : sane prec emax s (stats_step thr dep x v)) by (now apply sane_step).
      injection L as L. cbn [combine ScalarSpec.shares ScalarSpec.weights]. rewrite (IH us _ S' ltac:(assumption) L).
      destruct (is_over thr x) eqn:Ox; cbn [app combine]; [|reflexivity].
      rewrite weights_over; [reflexivity|exact S'|assumption|]. now apply over_step.
    Qed.
    (** the bound in terms of the largest update *)
    Lemma shares_bound (xs : list (bf * bf)) M : Forall (fun x : bf * bf => fnonneg (fst x)) xs -> Forall (fun x : bf * bf => (Rabs (B2R (snd x)) <= M)%R) xs ->
      (0 <= M)%R -> (Rsum (map (fun x => Rabs (exact_share x)) xs) <= M * Rsum (map (fun x => B2R (fst x)) xs))%R.
    Proof.
      intros A B Mp. induction xs as [|x xs IH]; cbn [map Rsum]; [lra|]. inversion A as [|? ? Ax A']; inversion B as [|? ? Bx B']; subst.
      specialize (IH A' B'). unfold exact_share at 1. rewrite Rabs_mult, (Rabs_pos_eq (B2R (fst x))) by apply Ax.
      rewrite Rmult_plus_distr_l, (Rmult_comm M). apply Rplus_le_compat; [|exact IH]. apply Rmult_le_compat_l; [apply Ax|assumption].
    Qed.
    Lemma bounds_mono m (a M tot tot' : R) : (Rabs a <= M)%R -> (0 <= tot <= tot')%R ->
      (magnitude_bound prec emax m a tot <= magnitude_bound prec emax m M tot')%R /\ (error_bound prec emax m a tot <= error_bound prec emax m M tot')%R.
    Proof.
      intros Ma Lt. assert (Mp : (0 <= M)%R) by (eapply Rle_trans; [apply Rabs_pos|exact Ma]).
      assert (G1 : (1 <= (1 + bpow radix2 (- prec)) ^ m)%R) by apply pow_ge_1. assert (G2 : (1 <= (1 + bpow radix2 (- prec)) ^ S m)%R) by apply pow_ge_1.
      unfold magnitude_bound, error_bound. cbv zeta. rewrite (Rabs_pos_eq M Mp).
      split; apply Rplus_le_compat_r; apply Rplus_le_compat; apply Rmult_le_compat_l; lra.
    Qed.
  End Scalar.

  Section Loop.
    Context (c0 : state F) (next : tr -> tr) (upd : tr -> dict tr) (halt : tr -> array F) (init : tr).
    Context (He : eps_ok (epsilon c0)) (Hd : dep_ok prec emax (depression_constant c0)) (W : wf c0) (Fr : fresh c0)
      (Fi : forall k, step_fits c0 (upd (nth_state next k init)) (halt (nth_state next k init)))
      (Nn : forall k, Forall not_nan (a_data (halt (nth_state next k init)))).
    Notation calls n := (loop_calls next upd halt n init).
    Notation thr := (threshold c0).
    Notation dep := (v_of_scl F (depression_constant c0)).

    Lemma ie_wf n : Forall call_wf (calls n). Proof. eapply calls_of_wf; eauto. Qed.
    Lemma ie_returned n : returned c0 (calls n) = calls n.
    Proof.
      pose proof Fr as (_ & _ & _ & _ & A).
      destruct (calls_of_ok next upd halt n c0 init W (Samples.fresh_wf_pending _ Fr) A Fi) as [c' Hs]. exact (proj2 (strictly_run _ _ _ Hs)).
    Qed.
    Lemma ie_length i : i < size (batch_shape c0) -> forall k, i < length (a_data (halt (nth_state next k init))).
    Proof. intros Hi k. destruct (Fi k) as (_ & _ & _ & A & S & _). unfold awf, twf in A. unfold a_data, a_shape in *. rewrite A, S. exact Hi. Qed.
    Lemma ie_values n i : i < size (batch_shape c0) -> values_of i (calls n) = halting_inputs next halt init i n.
    Proof. intros Hi. exact (loop_values next upd halt i n init (v_zero F) (ie_length i Hi)). Qed.
    Lemma ie_ok n i : i < size (batch_shape c0) -> Forall (fun v : val F => is_nan (v : bf) = false) (halting_inputs next halt init i n).
    Proof.
      intros Hi. unfold halting_inputs. apply Forall_map, Forall_forall. intros k _. specialize (Nn k). rewrite Forall_forall in Nn. apply Nn.
      apply nth_In. now apply ie_length.
    Qed.
    Lemma ie_prob n i : i < size (batch_shape c0) -> exists p r k, element (run c0 (calls n)) i p r k.
    Proof.
      intros Hi. assert (P := Samples.fresh_wf_pending _ Fr). destruct (run_wf c0 (calls n) W P (ie_wf n)) as [W' _].
      assert (exists p, nth_error (a_data (probabilities (run c0 (calls n)))) i = Some p) as [p Hpi].
      { apply nth_error_lt. rewrite (wf_batch_len _ W'). assert (X := sf_p _ _ (run_frame c0 (calls n) W P (ie_wf n))). unfold sig in X. injection X as X _. unfold batch_shape in *. now rewrite X. }
      destruct (element_exists _ i p W' Hpi) as (r & k & El). eauto.
    Qed.
    Lemma ie_stats n i p r k : i < size (batch_shape c0) -> element (run c0 (calls n)) i p r k ->
      mkStats p r k = stats_run thr dep stats0 (map Some (halting_inputs next halt init i n)).
    Proof.
      intros Hi El. destruct (C64_every_element_runs_the_scalar_program c0 (calls n) W Fr (ie_wf n)) as [S _]. specialize (S _ _ _ _ El).
      rewrite ie_returned, (stats_program_values i _ (loop_no_reset next upd halt n init)), ie_values in S by assumption. exact S.
    Qed.
    Lemma ie_statistics n i : i < size (batch_shape c0) ->
      statistics_accurate (N := F) (fun x => x) thr dep next halt init n (run c0 (calls n)) i.
    Proof.
      intros Hi. destruct (ie_prob n i Hi) as (p & r & k & El). exists p, r, k. split; [exact El|]. assert (S := ie_stats n i p r k Hi El).
      assert (Ok := ie_ok n i Hi). set (vs := halting_inputs next halt init i n) in *. unfold loop_weights. fold vs. set (ws := ScalarSpec.weights (N := F) thr dep stats0 vs).
      pose proof (sane0 prec emax H2 c0 He) as S0. pose proof (sane_run prec emax H2 c0 He Hd vs stats0 S0 Ok) as Sn. rewrite <- S in Sn.
      destruct (weights_sum prec emax H2 c0 He Hd vs stats0 S0 Ok) as [Wn Ws]. fold ws in Wn, Ws. rewrite <- S in Ws. cbn [cumulative] in Ws.
      assert (Lv : length vs = n) by (unfold vs, halting_inputs; now rewrite map_length, seq_length).
      assert (Hh := halted_is_over c0 (calls n) i p r k W Fr (ie_wf n) El). unfold halted_now. unfold halted in Hh.
      split; [exact (sn_unit _ _ _ _ Sn)|]. split; [exact Wn|].
      split; [rewrite <- Lv; apply weights_length|].
      split. { replace (Rsum (map B2R ws)) with (B2R (cumulative (stats0 : stats F) : bf) + Rsum (map (fun w : val F => B2R (w : bf)) ws))%R; [exact Ws|]. cbn [cumulative stats0 v_zero FloatNum]. change (B2R (f_zero : bf)) with 0%R. apply Rplus_0_l. }
      split. { intros X. rewrite Hh in X. apply Some_inj in X. exact (sn_over _ _ _ _ Sn X). }
      split. { intros X. rewrite Hh in X. apply Some_inj in X. rewrite <- Lv. apply (weights_full c0 He Hd vs stats0 S0 Ok). etransitivity; [|exact X]. f_equal. symmetry. exact S. }
      split.
      { change k with (steps (mkStats p r k)). rewrite S. assert (P2 : (0 < 2 ^ prec)%Z) by (apply Z.pow_pos_nonneg; lia).
        apply (weights_count c0 He Hd vs stats0 0%Z); auto; [lia|]. split; reflexivity. }
      intros T1. assert (Q : fremainder prec emax c0 (mkStats p r k)).
      { rewrite S. apply (fremainder_run prec emax H2 c0 He Hd T1); [now apply (fremainder0 prec emax H2 c0 He)|]. apply Forall_map. exact Ok. }
      destruct Q as [_ U O Rz]. split; [exact U|]. split; intros X; rewrite Hh in X; apply Some_inj in X; [exact (Rz X)|]. specialize (O X). cbn [remainder] in O.
      pose proof (threshold_unit prec emax H2 c0 He) as [Tf [T0 T1']].
      pose proof (rnd_error_unit prec emax H2 (1 - B2R (threshold c0 : bf))%R ltac:(lra)) as Er. apply Rabs_le_inv in Er. unfold half_gap in Er. split; [|lra].
      eapply Rle_trans; [|exact O]. apply rnd_ge_fmt; [exact Hp| |].
      - apply generic_format_bpow. unfold SpecFloat.fexp, SpecFloat.emin. unfold Prec_lt_emax in Hm. lia.
      - assert (Lp : (B2R (threshold c0 : bf) <= pred radix2 (SpecFloat.fexp prec emax) 1)%R).
        { apply pred_ge_gt; [now apply (FLT_exp_valid (SpecFloat.emin prec emax) prec)|apply generic_format_B2R|now apply format_1|exact T1]. }
        change 1%R with (bpow radix2 0) in Lp at 1. rewrite pred_bpow, (fexp_0 prec emax H2) in Lp.
        change (bpow radix2 0) with 1%R in Lp. lra.
    Qed.
    Lemma ie_accumulators n i : i < size (batch_shape c0) ->
      accumulators_accurate (N := F) (fun x => x) thr dep next upd halt init c0 n (run c0 (calls n)) i.
    Proof.
      intros Hi name t df l a dl Rs j av dv Ht Hdf Ha Hdl Hsh Hj Hav Hdv Fdv. subst i.
      destruct (C64_every_element_runs_the_scalar_program c0 (calls n) W Fr (ie_wf n)) as [_ A].
      destruct (A name t df Ht Hdf l a dl Ha Hdl Rs Hsh j av dv Hav Hdv) as (prog & Hprog & Eav). rewrite ie_returned in Hprog.
      destruct (loop_program next upd halt (j / size Rs) n init (v_zero F) name l j prog (ie_length _ Hi)) as (us & Us & ->); [intros m; apply (Fi m)|exact Hprog|].
      exists us. split; [exact Us|].
      change (map (fun m => nth (j / size Rs) (a_data (halt (nth_state next m init))) (v_zero F)) (seq 0 n)) with (halting_inputs next halt init (j / size Rs) n) in *.
      assert (Ok := ie_ok n (j / size Rs) Hi). unfold loop_weights. set (vs := halting_inputs next halt init (j / size Rs) n) in *.
      assert (Lv : length vs = n) by (unfold vs, halting_inputs; now rewrite map_length, seq_length).
      assert (Lu : length us = n) by (apply (f_equal (@List.length _)) in Us; rewrite !map_length, seq_length in Us; congruence).
      pose proof (sane0 prec emax H2 c0 He) as S0.
      fold (threshold c0) in Eav. rewrite (value_run_shares prec emax c0 dv _ stats0 dv) in Eav.
      rewrite (shares_combine c0 He Hd vs us stats0 S0 Ok (eq_trans Lu (eq_sym Lv))) in Eav.
      destruct (weights_sum prec emax H2 c0 He Hd vs stats0 S0 Ok) as [Wn Ws].
      pose proof (sn_unit _ _ _ _ (sane_run prec emax H2 c0 He Hd vs stats0 S0 Ok)) as [_ [_ P1]].
      assert (Lw := weights_length c0 vs stats0). cbv zeta. set (ws := ScalarSpec.weights (N := F) thr dep stats0 vs : list bf) in *.
      set (xs := combine ws us : list (bf * bf)) in *. set (tot := Rsum (map (fun x => Rabs (exact_share x)) xs)).
      assert (Lwu : length ws <= length us) by (eapply Nat.le_trans; [exact Lw|apply Nat.eq_le_incl; etransitivity; [exact Lv|symmetry; exact Lu]]).
      assert (Lx : length xs = length ws) by (unfold xs; rewrite combine_length; now apply Nat.min_l).
      assert (Fx : Forall (fun u : bf => is_finite u = true) us -> Forall (fun x : bf * bf => is_finite (fst x) = true /\ is_finite (snd x) = true) xs).
      { intros Fu. apply Forall_forall. intros [w u] Hx. split.
        - rewrite Forall_forall in Wn. exact (proj1 (Wn w (in_combine_l _ _ _ _ Hx))).
        - rewrite Forall_forall in Fu. exact (Fu u (in_combine_r _ _ _ _ Hx)). }
      assert (Er : Forall (fun u : bf => is_finite u = true) us -> (magnitude_bound prec emax (length xs) (B2R (dv : bf)) tot < bpow radix2 emax)%R ->
        is_finite (av : bf) = true /\ (Rabs (B2R (av : bf) - (B2R (dv : bf) + Rsum (map exact_share xs))) <= error_bound prec emax (length xs) (B2R (dv : bf)) tot)%R).
      { intros Fu B. pose proof (shares_error prec emax xs dv Fdv (Fx Fu)) as Y. cbv zeta in Y. fold tot in Y. specialize (Y B).
        assert (Ea : fold_left (share_step prec emax) xs (dv : bf) = (av : bf)) by (symmetry; exact Eav). rewrite Ea in Y. exact Y. }
      split; [exact Er|]. intros M Md Mu Big.
      assert (Fu : Forall (fun u : bf => is_finite u = true) us) by (eapply Forall_impl; [|exact Mu]; cbv beta; tauto).
      assert (Mpos : (0 <= M)%R) by (eapply Rle_trans; [apply Rabs_pos|exact Md]).
      assert (Tp : (0 <= tot)%R) by apply Rsum_abs_nonneg.
      assert (Lt : (tot <= M * (1 + INR (length ws) * bpow radix2 (- prec)))%R).
      { assert (L : (tot <= M * Rsum (map (fun x => B2R (fst x)) xs))%R).
        { apply shares_bound; [| |exact Mpos]; apply Forall_forall; intros [w u] Hx; cbn [fst snd].
          - rewrite Forall_forall in Wn. exact (Wn w (in_combine_l _ _ _ _ Hx)).
          - rewrite Forall_forall in Mu. exact (proj2 (Mu u (in_combine_r _ _ _ _ Hx))). }
        eapply Rle_trans; [exact L|]. apply Rmult_le_compat_l; [exact Mpos|].
        assert (Ex : map (fun x : bf * bf => B2R (fst x)) xs = map B2R ws).
        { unfold xs. clearbody ws. clear -Lwu. revert us Lwu. induction ws as [|w ws IH]; intros [|u us] L; cbn [length] in L; try lia; [reflexivity|reflexivity|].
          cbn [combine map fst]. f_equal. apply IH. lia. }
        rewrite Ex. apply Rabs_le_inv in Ws. cbn [cumulative stats0 v_zero FloatNum] in Ws. change (B2R (f_zero : bf)) with 0%R in Ws.
        assert (K : forall A B C : R, (0 + A - B <= C -> B <= 1 -> A <= 1 + C)%R) by (clear; intros; lra).
        exact (K _ _ _ (proj2 Ws) P1). }
      destruct (bounds_mono (length ws) (B2R (dv : bf)) M tot _ Md (conj Tp Lt)) as [X1 X2]. rewrite Lx in Er.
      destruct (Er Fu (Rle_lt_trans _ _ _ X1 Big)) as [Y1 Y2]. split; [exact Y1|]. eapply Rle_trans; [exact Y2|exact X2].
    Qed.
  End Loop.
End Runs.
