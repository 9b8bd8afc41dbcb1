(** * Every batch element runs the scalar program of ScalarSpec.v (every arithmetic). *)
From Verif Require Import Base PyTree Tensor Num Utils States Controller Wf Spec History ElementSpec ScalarSpec.
From Verif Require Import BaseFacts PyTreeFacts TensorFacts ControllerFacts IterateFacts ResetFacts
  HistoryFacts AgreeFacts.

Section Scalar.
  Context {N : numsys}.
  Notation st := (state N).
  Notation tr := (tree (array N)).
  Notation num := (val N).

  Notation thr s0 := (threshold s0).
  Notation dep s0 := (v_of_scl N (depression_constant s0)).
  Notation now s0 i evs := (stats_run (thr s0) (dep s0) stats0 (stats_program i evs)).

  Lemma value_run_snoc (t d0 dv : num) s a es e :
    value_run t d0 dv s a (es ++ [e]) =
    match e with
    | Some (v, u) => value_step t d0 (stats_run t d0 s (map (option_map fst) es)) (value_run t d0 dv s a es) v u
    | None => value_reset t (stats_run t d0 s (map (option_map fst) es)) (value_run t d0 dv s a es) dv
    end.
  Proof.
    revert s a. induction es as [|x es IH]; intros s a; cbn [app value_run map stats_run fold_left].
    - destruct e as [[v u]|]; reflexivity.
    - destruct x as [[v u]|]; cbn [option_map fst stats_event]; rewrite IH; reflexivity.
  Qed.
  Lemma stats_run_snoc (t d0 : num) s es e : stats_run t d0 s (es ++ [e]) = stats_event t d0 (stats_run t d0 s es) e.
  Proof. unfold stats_run. now rewrite fold_left_app. Qed.
  Lemma script_snoc i (evs : list (call N)) c : script_of i (evs ++ [c]) = script_step i (script_of i evs) c.
  Proof. unfold script_of. now rewrite fold_left_app. Qed.

  Record follows (s0 s : st) (evs : list (call N)) : Prop := {
    fo_wf : wf s;
    fo_pend : wf_pending s;
    fo_frame : same_frame s0 s;
    fo_slots : forall i k, In k (dkeys (updates s)) ->
        dget k (updates s) = Some (match dget k (waiting (script_of i evs)) with Some u => u | None => tnone end);
    fo_p : forall i p, nth_error (a_data (probabilities s)) i = Some p -> p = cumulative (now s0 i evs);
    fo_r : forall i r, nth_error (a_data (residuals s)) i = Some r -> r = remainder (now s0 i evs);
    fo_i : forall i n, nth_error (a_data (iterations s)) i = Some n -> n = steps (now s0 i evs);
    fo_acc : forall k t d, dget k (accumulators s) = Some t -> dget k (defaults s0) = Some d ->
        forall l a dl, nth_error (leaves t) l = Some a -> nth_error (leaves d) l = Some dl ->
        forall R, a_shape a = batch_shape s0 ++ R ->
        forall j av dv, nth_error (a_data a) j = Some av -> nth_error (a_data dl) j = Some dv ->
        exists prog, value_program (j / size R) k l j evs prog /\
          av = value_run (thr s0) (dep s0) dv stats0 dv prog
  }.

  Lemma follows_init s0 : wf s0 -> wf_pending s0 -> fresh s0 -> follows s0 s0 [].
  Proof.
    intros Hw Hp Hf. destruct Hf as (P & R & I & A & U).
    constructor; auto.
    - apply same_frame_refl.
    - intros i k Hk. apply dget_keys in Hk as [u Hu]. cbn. rewrite Hu. f_equal. eauto.
    - intros i p Hpi. apply (Forall_nth _ _ _ _ P) in Hpi. symmetry. exact Hpi.
    - intros i p Hpi. apply (Forall_nth _ _ _ _ R) in Hpi. symmetry. exact Hpi.
    - intros i p Hpi. apply (Forall_nth _ _ _ _ I) in Hpi. rewrite <- Hpi. reflexivity.
    - intros k t d Ht Hd l a dl Ha Hdl Rs HR j av dv Hav Hdv. exists []. split; [reflexivity|].
      assert (t = d) by (rewrite A in Ht; congruence). subst d.
      assert (a = dl) by congruence. subst dl. cbn [value_run]. congruence.
  Qed.

  (** The scalar program against the elementwise characterisation. *)
  Lemma step_p (s0 : st) (x : stats N) v : next_p s0 (cumulative x) v = cumulative (stats_step (thr s0) (dep s0) x v).
  Proof. reflexivity. Qed.
  Lemma step_r (s0 : st) (x : stats N) v : next_r s0 (cumulative x) (remainder x) v = remainder (stats_step (thr s0) (dep s0) x v).
  Proof. reflexivity. Qed.
  Lemma step_i (s0 : st) (x : stats N) v : next_i s0 (cumulative x) (steps x) = steps (stats_step (thr s0) (dep s0) x v).
  Proof. reflexivity. Qed.
  Lemma step_a (s0 : st) (x : stats N) a v u : next_a s0 (cumulative x) v a u = value_step (thr s0) (dep s0) x a v u.
  Proof. reflexivity. Qed.
  Lemma reset_kept (s0 : st) (x : stats N) v : kept s0 (cumulative x) v = v_mul N v (switch (thr s0) x).
  Proof. unfold kept, switch, is_over, halted_at, v_of_bool. now destruct (v_ltb N (threshold s0) (cumulative x)). Qed.

  Theorem follows_step (s0 s : st) evs c s' :
    follows s0 s evs -> call_wf c -> apply_call s c = Ok s' -> follows s0 s' (evs ++ [c]).
  Proof.
    intros T Hc H. pose proof T as [Tw Tp Tf Tsl Tpr Tr Ti Ta].
    assert (Hafter : after s c = s') by (unfold after; now rewrite H).
    assert (Hfr1 : same_frame s s').
    { pose proof (after_frame s c Tw Tp Hc) as X. now rewrite Hafter in X. }
    assert (Hfr : same_frame s0 s') by (eapply same_frame_trans; eauto).
    destruct (apply_call_wf s s' c Tw Tp Hc H) as [Hw' Hp'].
    assert (EB : batch_shape s = batch_shape s0).
    { pose proof (sf_p _ _ Tf) as E. injection E as E _. exact E. }
    assert (EB' : batch_shape s' = batch_shape s).
    { pose proof (sf_p _ _ Hfr1) as E. injection E as E _. exact E. }
    assert (Eeps : epsilon s = epsilon s0) by apply Tf.
    assert (Edep : depression_constant s = depression_constant s0) by apply Tf.
    destruct (elementwise_eq s s0 Eeps Edep) as (Np & Nr & Ni & Na & Nk & Nh).
    assert (Hstat : forall i x, (exists a : array N, awf a /\ a_shape a = batch_shape s' /\ nth_error (a_data a) i = Some x) ->
              exists p, nth_error (a_data (probabilities s)) i = Some p).
    { intros i x (a & Aw & As & Hx). apply nth_error_lt. rewrite (wf_batch_len _ Tw), <- EB', <- As.
      apply nth_error_some_lt in Hx. unfold awf, twf in Aw. unfold a_data in Hx. now rewrite Aw in Hx. }
    clear Hafter. destruct c as [name item|h|]; cbn [apply_call call_wf] in *.
    - (* cache_update *)
      rewrite cache_update_char in H. destruct (dget name (updates s)) as [u0|] eqn:Eu; [|discriminate].
      destruct (is_none u0) eqn:En; [|discriminate]. inversion H; subst s'.
      assert (Elog : forall i, script_of i (evs ++ [CCache name item]) =
                mkScript ((name, item) :: waiting (script_of i evs)) (lines (script_of i evs))).
      { intros i. rewrite script_snoc. reflexivity. }
      assert (Est : forall i, stats_program i (evs ++ [CCache name item]) = stats_program i evs).
      { intros i. unfold stats_program. now rewrite Elog. }
      constructor; auto.
      + intros i k Hk. rewrite Elog. cbn [with_updates updates waiting dget] in *.
        rewrite dget_dset. destruct (String.eqb k name) eqn:Ek; [reflexivity|].
        apply Tsl. apply In_dkeys_dset in Hk as [Hk|Hk]; [|assumption].
        subst k. rewrite String.eqb_refl in Ek. discriminate.
      + intros i p Hpi. rewrite Est. apply (Tpr i p Hpi).
      + intros i p Hpi. rewrite Est. apply (Tr i p Hpi).
      + intros i p Hpi. rewrite Est. apply (Ti i p Hpi).
      + intros k t d Ht Hd' l a dl Ha Hdl R HR j av dv Hav Hdv. unfold value_program. rewrite Elog.
        apply (Ta k t d Ht Hd' l a dl Ha Hdl R HR j av dv Hav Hdv).
    - (* iterate_act *)
      pose proof (iterate_ok_iff s h Tw Tp Hc) as [Hok _].
      destruct Hok as (Hsh & _ & Hrd); [eauto|].
      destruct (iterate_committed s h s' Tw Tp Hc H) as (C & _ & _).
      assert (Elog : forall i v, nth_error (a_data h) i = Some v ->
                script_of i (evs ++ [CIter h]) =
                mkScript [] (lines (script_of i evs) ++ [Some (v, waiting (script_of i evs))])).
      { intros i v Hv. rewrite script_snoc. cbn [script_step]. now rewrite Hv. }
      assert (Est : forall i v, nth_error (a_data h) i = Some v ->
                stats_program i (evs ++ [CIter h]) = stats_program i evs ++ [Some v]).
      { intros i v Hv. unfold stats_program. rewrite (Elog i v Hv). cbn [lines]. now rewrite map_app. }
      constructor; auto.
      + intros i k Hk. rewrite (cm_keys_u _ _ _ C) in Hk. rewrite (cm_upd _ _ _ C k Hk).
        rewrite script_snoc. cbn [script_step]. destruct (nth_error (a_data h) i); reflexivity.
      + intros i x Hx.
        destruct (Hstat i x) as [p Hpp]; [exists (probabilities s'); split; [apply Hw'|split; [reflexivity|exact Hx]]|].
        destruct (batch_get s h i p Tw Hc Hsh Hpp) as [v Hv].
        rewrite (cm_p _ _ _ C i p v Hpp Hv) in Hx.
        rewrite (Est i v Hv), stats_run_snoc. cbn [stats_event]. rewrite <- step_p, <- (Tpr i p Hpp), <- Np. congruence.
      + intros i x Hx.
        destruct (Hstat i x) as [p Hpp]; [exists (residuals s'); split; [apply Hw'|split; [apply Hw'|exact Hx]]|].
        destruct (batch_get s h i p Tw Hc Hsh Hpp) as [v Hv].
        destruct (batch_get s _ i p Tw (wf_r _ Tw) (wf_r_shape _ Tw) Hpp) as [r Hrr].
        rewrite (cm_r _ _ _ C i p r v Hpp Hrr Hv) in Hx.
        rewrite (Est i v Hv), stats_run_snoc. cbn [stats_event].
        rewrite <- step_r, <- (Tpr i p Hpp), <- (Tr i r Hrr), <- Nr. congruence.
      + intros i x Hx.
        destruct (Hstat i x) as [p Hpp]; [exists (iterations s'); split; [apply Hw'|split; [apply Hw'|exact Hx]]|].
        destruct (batch_get s h i p Tw Hc Hsh Hpp) as [v Hv].
        destruct (batch_get s _ i p Tw (wf_i _ Tw) (wf_i_shape _ Tw) Hpp) as [n Hn].
        rewrite (cm_i _ _ _ C i p n Hpp Hn) in Hx.
        rewrite (Est i v Hv), stats_run_snoc. cbn [stats_event].
        rewrite <- step_i, <- (Tpr i p Hpp), <- (Ti i n Hn), <- Ni. congruence.
      + intros k t' d Ht' Hd' l a' dl Ha' Hdl R HR j av' dv Hav' Hdv.
        assert (Hin : In k (dkeys (accumulators s))) by (rewrite <- (cm_keys_a _ _ _ C); apply dget_keys; eauto).
        apply dget_keys in Hin as [t Ht].
        destruct (cm_acc _ _ _ C k t Ht) as (u & x & Hu & Hx & Hal & Hlu & Heff).
        assert (x = t') by congruence. subst x.
        destruct (nth_error_same_length _ (leaves t) _ _ (alike_len _ _ Hal) Ha') as [a Ha].
        destruct (nth_error_same_length _ (leaves u) _ _ (eq_sym Hlu) Ha) as [ul Hul].
        pose proof (alike_nth _ _ _ _ _ Hal Ha' Ha) as Hsg. injection Hsg as Hs1 _.
        destruct (Forall_nth _ _ _ _ (wf_acc _ Tw _ _ Ht) Ha) as (Haw & _).
        destruct (Forall_nth _ _ _ _ (wf_acc _ Hw' _ _ Ht') Ha') as (Haw' & _).
        destruct (ready_leaf s k t u l a ul Tw Tp Hrd Ht Hu Ha Hul) as [Us Ul].
        assert (Hla : length (a_data a') = length (a_data a)).
        { unfold awf, twf in Haw, Haw'. unfold a_data. rewrite Haw, Haw'. unfold a_shape in Hs1. now rewrite Hs1. }
        destruct (nth_error_same_length _ (a_data a) _ _ Hla Hav') as [av Hav].
        destruct (nth_error_same_length _ (a_data ul) _ _ (eq_sym Ul) Hav) as [uv Huv].
        assert (HRa : a_shape a = batch_shape s ++ R) by congruence.
        assert (Hib : exists p, nth_error (a_data (probabilities s)) (j / size R) = Some p).
        { apply nth_error_lt. rewrite (wf_batch_len s Tw).
          unfold awf, twf in Haw. fold (a_shape a) in Haw. rewrite HRa in Haw.
          now destruct (size_pos_nth _ _ _ _ _ Haw Hav). }
        destruct Hib as [p Hpp]. destruct (batch_get s h _ p Tw Hc Hsh Hpp) as [v Hv].
        rewrite (Heff l a ul a' Ha Hul Ha' R HRa j av uv p v Hav Huv Hpp Hv) in Hav'.
        destruct (Ta k t d Ht Hd' l a dl Ha Hdl R ltac:(congruence) j av dv Hav Hdv) as (prog & Hus & Eav).
        exists (prog ++ [Some (v, uv)]). unfold value_program in *. rewrite (Elog _ v Hv). cbn [lines]. split.
        * rewrite !map_app, Hus. f_equal. cbn [map snd option_map fst]. do 3 f_equal. unfold update_at.
          assert (Hinu : In k (dkeys (updates s))) by (apply dget_keys; eauto).
          pose proof (Tsl (j / size R) k Hinu) as Hsl. rewrite Hu in Hsl.
          destruct (Hrd k t Ht) as (u1 & Hu1 & Hnn & _). assert (u1 = u) by congruence. subst u1.
          destruct (dget k (waiting (script_of (j / size R) evs))) as [u2|].
          -- assert (u2 = u) by congruence. subst u2. rewrite Hul. exact Huv.
          -- assert (u = tnone) by congruence. subst u. discriminate.
        * rewrite value_run_snoc.
          assert (Es : map (option_map fst) prog = stats_program (j / size R) evs).
          { unfold stats_program. apply (f_equal (map (option_map fst))) in Hus. rewrite !map_map in Hus.
            erewrite map_ext in Hus; [symmetry; etransitivity; [exact Hus|]; apply map_ext|];
            intros [e|]; reflexivity. }
          rewrite Es, <- step_a, <- (Tpr _ p Hpp), <- Eav, <- Na. congruence.
    - (* reset_batches *)
      destruct (reset_effect s s' Tw H) as [C _].
      assert (Elog : forall i, script_of i (evs ++ [CReset]) =
                mkScript (waiting (script_of i evs)) (lines (script_of i evs) ++ [None])).
      { intros i. rewrite script_snoc. reflexivity. }
      assert (Est : forall i, stats_program i (evs ++ [CReset]) = stats_program i evs ++ [None]).
      { intros i. unfold stats_program. rewrite Elog. cbn [lines]. now rewrite map_app. }
      assert (Hkept : forall i p v, nth_error (a_data (probabilities s)) i = Some p ->
                kept s p v = v_mul N v (switch (thr s0) (now s0 i evs))).
      { intros i p v Hpp. rewrite Nk, (Tpr i p Hpp). apply reset_kept. }
      constructor; auto.
      + intros i k Hk. rewrite (rs_upd _ _ C) in *. rewrite (Tsl i k Hk), Elog. reflexivity.
      + intros i x Hx.
        destruct (Hstat i x) as [p Hpp]; [exists (probabilities s'); split; [apply Hw'|split; [reflexivity|exact Hx]]|].
        rewrite (rs_p _ _ C i p Hpp), (Hkept i p p Hpp) in Hx.
        rewrite Est, stats_run_snoc. cbn [stats_event stats_reset cumulative]. rewrite <- (Tpr i p Hpp). congruence.
      + intros i x Hx.
        destruct (Hstat i x) as [p Hpp]; [exists (residuals s'); split; [apply Hw'|split; [apply Hw'|exact Hx]]|].
        destruct (batch_get s _ i p Tw (wf_r _ Tw) (wf_r_shape _ Tw) Hpp) as [r Hrr].
        rewrite (rs_r _ _ C i p r Hpp Hrr), (Hkept i p r Hpp) in Hx.
        rewrite Est, stats_run_snoc. cbn [stats_event stats_reset remainder]. rewrite <- (Tr i r Hrr). congruence.
      + intros i x Hx.
        destruct (Hstat i x) as [p Hpp]; [exists (iterations s'); split; [apply Hw'|split; [apply Hw'|exact Hx]]|].
        destruct (batch_get s _ i p Tw (wf_i _ Tw) (wf_i_shape _ Tw) Hpp) as [n Hn].
        rewrite (rs_i _ _ C i p n Hpp Hn), (Hkept i p n Hpp) in Hx.
        rewrite Est, stats_run_snoc. cbn [stats_event stats_reset steps]. rewrite <- (Ti i n Hn). congruence.
      + intros k t' d Ht' Hd' l a' dl Ha' Hdl R HR j av' dv Hav' Hdv.
        assert (Hin : In k (dkeys (accumulators s))) by (rewrite <- (rs_keys _ _ C); apply dget_keys; eauto).
        apply dget_keys in Hin as [t Ht].
        assert (Hds : dget k (defaults s) = Some d) by (rewrite (sf_def _ _ Tf); exact Hd').
        destruct (rs_acc _ _ C k t d Ht Hds) as (x & Hx & Hal & Heff).
        assert (x = t') by congruence. subst x.
        destruct (nth_error_same_length _ (leaves t) _ _ (alike_len _ _ Hal) Ha') as [a Ha].
        pose proof (alike_nth _ _ _ _ _ Hal Ha' Ha) as Hsg. injection Hsg as Hs1 _.
        destruct (Forall_nth _ _ _ _ (wf_acc _ Tw _ _ Ht) Ha) as (Haw & _).
        destruct (Forall_nth _ _ _ _ (wf_acc _ Hw' _ _ Ht') Ha') as (Haw' & _).
        assert (Hla : length (a_data a') = length (a_data a)).
        { unfold awf, twf in Haw, Haw'. unfold a_data. rewrite Haw, Haw'. unfold a_shape in Hs1. now rewrite Hs1. }
        destruct (nth_error_same_length _ (a_data a) _ _ Hla Hav') as [av Hav].
        assert (HRa : a_shape a = batch_shape s ++ R) by congruence.
        assert (Hib : exists p, nth_error (a_data (probabilities s)) (j / size R) = Some p).
        { apply nth_error_lt. rewrite (wf_batch_len s Tw).
          unfold awf, twf in Haw. fold (a_shape a) in Haw. rewrite HRa in Haw.
          now destruct (size_pos_nth _ _ _ _ _ Haw Hav). }
        destruct Hib as [p Hpp].
        rewrite (Heff l a dl a' Ha Hdl Ha' R HRa j av dv p Hav Hdv Hpp), Nh in Hav'.
        destruct (Ta k t d Ht Hd' l a dl Ha Hdl R ltac:(congruence) j av dv Hav Hdv) as (prog & Hus & Eav).
        exists (prog ++ [None]). unfold value_program in *. rewrite Elog. cbn [lines]. split.
        * rewrite !map_app, Hus. reflexivity.
        * rewrite value_run_snoc.
          assert (Es : map (option_map fst) prog = stats_program (j / size R) evs).
          { unfold stats_program. apply (f_equal (map (option_map fst))) in Hus. rewrite !map_map in Hus.
            erewrite map_ext in Hus; [symmetry; etransitivity; [exact Hus|]; apply map_ext|];
            intros [e|]; reflexivity. }
          rewrite Es. unfold value_reset, is_over. rewrite <- (Tpr _ p Hpp).
          unfold halted_at in Hav'. rewrite <- Eav. destruct (v_ltb N (threshold s0) p); congruence.
  Qed.

  Lemma follows_run (s0 s : st) evs cs :
    follows s0 s evs -> Forall call_wf cs -> follows s0 (run s cs) (evs ++ returned s cs).
  Proof.
    revert s evs. induction cs as [|c cs IH]; intros s evs T Hc.
    - cbn. now rewrite app_nil_r.
    - inversion Hc as [|? ? H1 H2]; subst. rewrite run_cons. unfold after. cbn [returned].
      destruct (apply_call s c) as [s'|e] eqn:E; [|now apply IH].
      replace (evs ++ c :: returned s' cs) with ((evs ++ [c]) ++ returned s' cs) by now rewrite <- app_assoc.
      apply IH; [|assumption]. eapply follows_step; eauto.
  Qed.
  Theorem run_follows (s0 : st) cs :
    wf s0 -> fresh s0 -> Forall call_wf cs -> follows s0 (run s0 cs) (returned s0 cs).
  Proof.
    intros Hw Hf Hc. apply (follows_run s0 s0 [] cs); auto. apply follows_init; auto.
    destruct Hf as (_ & _ & _ & _ & F). intros k u Hu. rewrite (F k u Hu). constructor.
  Qed.
End Scalar.
