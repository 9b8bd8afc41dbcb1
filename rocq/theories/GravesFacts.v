(** * Every call history refines the ACT specification (exact arithmetic). *)
From Coq Require Import QArith Qcanon.
From Verif Require Import Base PyTree Tensor Num Utils States Controller Wf Spec History ElementSpec.
From Verif Require Import BaseFacts PyTreeFacts TensorFacts ControllerFacts IterateFacts ResetFacts
  HistoryFacts AgreeFacts QcFacts SpecFacts.

Notation st := (state QcNum).
Notation tr := (tree (array QcNum)).
Close Scope Qc_scope.
Open Scope nat_scope.

Ltac qring := cbn [v_add v_sub v_mul v_one v_zero v_of_bool QcNum];
  match goal with |- @eq _ ?a ?b => let H := fresh in assert (H : @eq Qc a b); [ring|exact H] end.

Lemma clip01_clamp (v : Qc) : clip01 (N := QcNum) v = clamp v.
Proof.
  unfold clip01, clamp. cbn [v_min v_max v_one v_zero QcNum]. unfold Qcmin', Qcmax'.
  destruct (Qclt_le_dec v 0) as [H|H].
  - assert (E : Qcltb 0 v = false) by (apply Qcltb_ge; revert H; qc). rewrite E.
    assert (E2 : Qcltb 0 1 = true) by reflexivity. rewrite E2. reflexivity.
  - destruct (Qcltb 0 v) eqn:E.
    + destruct (Qcltb v 1) eqn:E1; destruct (Qclt_le_dec 1 v) as [H1|H1]; qcb; try reflexivity.
      * exfalso; revert E1 H1; qc.
      * revert E1 H1; qc.
    + assert (E2 : Qcltb 0 1 = true) by reflexivity. rewrite E2. qcb.
      destruct (Qclt_le_dec 1 v) as [H1|H1]; [exfalso; revert E H1; qc|]. revert H E; qc.
Qed.

(** The elementwise step on exact numbers, in terms of the specification's vocabulary. *)
Section Elements.
  Context (s : st) (Heps : (0 < epsilon s)%Qc) (Heps1 : (epsilon s <= 1)%Qc)
          (Hdep : (0 <= depression_constant s)%Qc).

  Lemma thr_bounds : (0 <= thr s)%Qc /\ (thr s < 1)%Qc.
  Proof using Heps Heps1. unfold thr. revert Heps Heps1. generalize (epsilon s). split; qc. Qed.

  Lemma halted_spec hs : halted_at s (act_probability (thr s) hs) = act_halted (thr s) hs.
  Proof using Heps Heps1.
    rewrite act_probability_cases. unfold halted_at, threshold. cbn [v_ltb v_of_scl s_one_sub QcNum].
    destruct thr_bounds as [H0 H1]. fold (thr s).
    destruct (act_halted (thr s) hs) eqn:E.
    - apply Qcltb_lt. exact H1.
    - apply Qcltb_ge. pose proof (not_halted_le _ _ H0 E (length hs)) as H. now rewrite firstn_all in H.
  Qed.

  Lemma scaled_spec v : scaled s v = (depression_constant s * clamp v)%Qc.
  Proof using. unfold scaled. rewrite clip01_clamp. reflexivity. Qed.
  Lemma scaled_nonneg v : (0 <= scaled s v)%Qc.
  Proof using Hdep. rewrite scaled_spec. apply Qcmult_nonneg; [assumption|]. apply clamp_range. Qed.

  Lemma halts_now_spec hs v :
    halts_now s (act_probability (thr s) hs) v = act_halted (thr s) (hs ++ [scaled s v]).
  Proof using Heps Heps1 Hdep.
    rewrite act_halted_snoc, act_probability_cases. unfold halts_now, threshold.
    cbn [v_ltb v_add v_of_scl s_one_sub QcNum]. fold (thr s).
    pose proof (scaled_nonneg v) as Hs. destruct thr_bounds as [H0 H1].
    destruct (act_halted (thr s) hs); cbn [orb].
    - apply Qcltb_lt. revert Hs H1. generalize (scaled s v) (thr s). cbn [val QcNum]. qc.
    - rewrite Qcplus_comm. reflexivity.
  Qed.
  Lemma weight_spec hs v :
    act_weights (thr s) (hs ++ [scaled s v]) =
    act_weights (thr s) hs ++ [weight s (act_probability (thr s) hs) v].
  Proof using Heps Heps1 Hdep.
    unfold weight. rewrite halts_now_spec. rewrite act_weights_snoc, act_probability_cases, act_halted_snoc.
    unfold act_halted, act_weights. destruct (halting_step (thr s) 0 hs) as [n|] eqn:E; cbn [orb].
    - reflexivity.
    - destruct (Qclt_le_dec (thr s) (total hs + scaled s v)); reflexivity.
  Qed.
  Lemma next_p_spec hs v :
    next_p s (act_probability (thr s) hs) v = act_probability (thr s) (hs ++ [scaled s v]).
  Proof using Heps Heps1 Hdep.
    unfold next_p. unfold act_probability at 3. rewrite weight_spec, total_app. unfold act_probability.
    cbn [total v_add QcNum]. now rewrite Qcplus_0_r.
  Qed.
  Lemma next_r_spec hs v :
    next_r s (act_probability (thr s) hs) (act_residual (thr s) hs) v =
    act_residual (thr s) (hs ++ [scaled s v]).
  Proof using Heps Heps1 Hdep.
    unfold next_r. rewrite halts_now_spec, halted_spec, act_halted_snoc, act_probability_cases.
    unfold act_residual, act_halted. rewrite halting_step_snoc.
    replace (0 + total hs + scaled s v)%Qc with (total hs + scaled s v)%Qc by qring.
    destruct (halting_step (thr s) 0 hs) as [n|] eqn:E; cbn [orb negb andb].
    - apply halting_step_first in E as (Hn & _). rewrite firstn_app.
      replace (n - length hs) with 0 by lia. cbn [firstn]. now rewrite app_nil_r.
    - destruct (Qclt_le_dec (thr s) (total hs + scaled s v)); cbn [andb]; [|reflexivity].
      rewrite firstn_app, Nat.sub_diag, firstn_all. cbn [firstn]. rewrite app_nil_r. reflexivity.
  Qed.
  Lemma Qc_of_nat_S n : Qc_of_nat (S n) = (Qc_of_nat n + 1)%Qc.
  Proof using.
    unfold Qc_of_nat. apply Qc_is_canon. unfold Qcplus, Q2Qc. cbn [this]. rewrite !Qred_correct.
    rewrite Nat2Z.inj_succ. unfold Z.succ. now rewrite inject_Z_plus.
  Qed.
  Lemma next_i_spec hs v :
    next_i s (act_probability (thr s) hs) (Qc_of_nat (act_iterations (thr s) hs)) =
    Qc_of_nat (act_iterations (thr s) (hs ++ [scaled s v])).
  Proof using Heps Heps1 Hdep.
    unfold next_i. rewrite halted_spec. unfold act_iterations, act_halted. rewrite halting_step_snoc.
    destruct (halting_step (thr s) 0 hs) as [n|]; [reflexivity|].
    rewrite app_length. cbn [length]. replace (length hs + 1) with (S (length hs)) by lia.
    destruct (Qclt_le_dec (thr s) (0 + total hs + scaled s v)); symmetry; apply Qc_of_nat_S.
  Qed.
  Lemma next_a_spec hs v us d u :
    length hs = length us ->
    next_a s (act_probability (thr s) hs) v (d + dot (act_weights (thr s) hs) us)%Qc u =
    (d + dot (act_weights (thr s) (hs ++ [scaled s v])) (us ++ [u]))%Qc.
  Proof using Heps Heps1 Hdep.
    intros Hl. rewrite weight_spec, dot_app by (now rewrite act_weights_length).
    unfold next_a. rewrite halted_spec. cbn [v_add v_mul QcNum dot].
    destruct (act_halted (thr s) hs) eqn:E.
    - assert (W : weight s (act_probability (thr s) hs) v = 0%Qc).
      { unfold weight. rewrite halts_now_spec, act_halted_snoc, E. cbn [orb].
        rewrite act_probability_cases, E. cbn [v_sub v_one QcNum]. qring. }
      rewrite W. qring.
    - qring.
  Qed.
End Elements.

(** ** The invariant *)
Definition hs_of (s0 : st) (g : log QcNum) : list Qc := effective s0 (map fst (past g)).
Definition log0 (s0 : st) (i : nat) (evs : list (call QcNum)) : log QcNum :=
  log_of (fun vs : list (val QcNum) => act_halted (thr s0) (effective s0 vs)) i evs.

Record tracks (s0 s : st) (evs : list (call QcNum)) : Prop := {
  tk_wf : wf s;
  tk_pend : wf_pending s;
  tk_frame : same_frame s0 s;
  tk_slots : forall i k, In k (dkeys (updates s)) ->
      dget k (updates s) = Some (match dget k (pending (log0 s0 i evs)) with Some u => u | None => tnone end);
  tk_p : forall i p, nth_error (a_data (probabilities s)) i = Some p ->
      p = act_probability (thr s0) (hs_of s0 (log0 s0 i evs));
  tk_r : forall i r, nth_error (a_data (residuals s)) i = Some r ->
      r = act_residual (thr s0) (hs_of s0 (log0 s0 i evs));
  tk_i : forall i n, nth_error (a_data (iterations s)) i = Some n ->
      n = Qc_of_nat (act_iterations (thr s0) (hs_of s0 (log0 s0 i evs)));
  tk_acc : forall k t d, dget k (accumulators s) = Some t -> dget k (defaults s0) = Some d ->
      forall l a dl, nth_error (leaves t) l = Some a -> nth_error (leaves d) l = Some dl ->
      forall R, a_shape a = batch_shape s0 ++ R ->
      forall j av dv, nth_error (a_data a) j = Some av -> nth_error (a_data dl) j = Some dv ->
      exists us : list Qc,
        map (fun e => update_at k l j (snd e)) (past (log0 s0 (j / size R) evs)) = map Some us /\
        av = (dv + dot (act_weights (thr s0) (hs_of s0 (log0 s0 (j / size R) evs))) us)%Qc
}.

Lemma log0_snoc s0 i evs c :
  log0 s0 i (evs ++ [c]) =
  log_step (fun vs : list (val QcNum) => act_halted (thr s0) (effective s0 vs)) i (log0 s0 i evs) c.
Proof. unfold log0, log_of. now rewrite fold_left_app. Qed.

Lemma fresh_pending (s : st) : fresh s -> wf_pending s.
Proof.
  intros (_ & _ & _ & _ & H) k u Hu. rewrite (H k u Hu). constructor.
Qed.

Lemma tracks_init s0 : wf s0 -> fresh s0 -> tracks s0 s0 [].
Proof.
  intros Hw Hf. pose proof (fresh_pending _ Hf) as Hp. destruct Hf as (P & R & I & A & U).
  constructor; auto.
  - apply same_frame_refl.
  - intros i k Hk. apply dget_keys in Hk as [u Hu]. cbn. rewrite Hu. f_equal. eauto.
  - intros i p Hpi. apply (Forall_nth _ _ _ _ P) in Hpi. symmetry. exact Hpi.
  - intros i p Hpi. apply (Forall_nth _ _ _ _ R) in Hpi. symmetry. exact Hpi.
  - intros i p Hpi. apply (Forall_nth _ _ _ _ I) in Hpi. rewrite <- Hpi. reflexivity.
  - intros k t d Ht Hd l a dl Ha Hdl Rs HR j av dv Hav Hdv. exists []. split; [reflexivity|].
    assert (t = d) by (rewrite A in Ht; congruence). subst d.
    assert (a = dl) by congruence. subst dl. assert (av = dv) by congruence. subst dv.
    symmetry. apply Qcplus_0_r.
Qed.

Lemma frame_batch (s s' : st) : same_frame s s' -> batch_shape s' = batch_shape s.
Proof. intros H. pose proof (sf_p _ _ H) as E. injection E as E _. exact E. Qed.

Lemma hs_of_snoc s0 g v pnd : hs_of s0 (mkLog (N := QcNum) [] (past g ++ [(v, pnd)])) =
  hs_of s0 g ++ [scaled s0 v].
Proof.
  unfold hs_of, effective. cbn [past]. rewrite !map_app. cbn [map fst]. f_equal.
  apply (f_equal (fun x => [x])). symmetry. apply scaled_spec.
Qed.
Lemma Some_inj {A} (x y : A) : Some x = Some y -> x = y.
Proof. congruence. Qed.
Lemma map_some_length {A} (l : list (option A)) us : l = map Some us -> length l = length us.
Proof. intros ->. apply map_length. Qed.

Theorem tracks_step (s0 s : st) evs c s' :
  (0 < epsilon s0)%Qc -> (epsilon s0 <= 1)%Qc -> (0 <= depression_constant s0)%Qc ->
  tracks s0 s evs -> call_wf c -> apply_call s c = Ok s' -> tracks s0 s' (evs ++ [c]).
Proof.
  intros He He1 Hd T Hc H. pose proof T as [Tw Tp Tf Tsl Tpr Tr Ti Ta].
  assert (Hafter : after s c = s') by (unfold after; now rewrite H).
  assert (Hfr1 : same_frame s s').
  { pose proof (after_frame s c Tw Tp Hc) as X. now rewrite Hafter in X. }
  assert (Hfr : same_frame s0 s') by (eapply same_frame_trans; eauto).
  destruct (apply_call_wf s s' c Tw Tp Hc H) as [Hw' Hp'].
  pose proof (frame_batch _ _ Tf) as EB. pose proof (frame_batch _ _ Hfr1) as EB'.
  assert (Eeps : epsilon s = epsilon s0) by apply Tf.
  assert (Edep : depression_constant s = depression_constant s0) by apply Tf.
  destruct (elementwise_eq s s0 Eeps Edep) as (Np & Nr & Ni & Na & Nk & Nh).
  clear Hafter. destruct c as [name item|h|]; cbn [apply_call call_wf] in *.
  - (* cache_update *)
    rewrite cache_update_char in H. destruct (dget name (updates s)) as [u0|] eqn:Eu; [|discriminate].
    destruct (is_none u0) eqn:En; [|discriminate]. inversion H; subst s'.
    assert (Elog : forall i, log0 s0 i (evs ++ [CCache name item]) =
              mkLog ((name, item) :: pending (log0 s0 i evs)) (past (log0 s0 i evs))).
    { intros i. rewrite log0_snoc. reflexivity. }
    constructor; auto.
    + intros i k Hk. rewrite Elog. cbn [with_updates updates pending dget] in *.
      rewrite dget_dset. destruct (String.eqb k name) eqn:Ek; [reflexivity|].
      apply Tsl. apply In_dkeys_dset in Hk as [Hk|Hk]; [|assumption].
      subst k. rewrite String.eqb_refl in Ek. discriminate.
    + intros i p Hpi. rewrite Elog. apply (Tpr i p Hpi).
    + intros i p Hpi. rewrite Elog. apply (Tr i p Hpi).
    + intros i p Hpi. rewrite Elog. apply (Ti i p Hpi).
    + intros k t d Ht Hd' l a dl Ha Hdl R HR j av dv Hav Hdv. rewrite Elog.
      apply (Ta k t d Ht Hd' l a dl Ha Hdl R HR j av dv Hav Hdv).
  - (* iterate_act *)
    pose proof (iterate_ok_iff s h Tw Tp Hc) as [Hok _].
    destruct Hok as (Hsh & _ & Hrd); [eauto|].
    destruct (iterate_committed s h s' Tw Tp Hc H) as (C & _ & _).
    assert (Hpget : forall i x, nth_error (a_data (probabilities s')) i = Some x ->
              exists p v, nth_error (a_data (probabilities s)) i = Some p /\
                          nth_error (a_data h) i = Some v).
    { intros i x Hx. apply nth_error_some_lt in Hx. rewrite (wf_batch_len _ Hw'), EB' in Hx.
      rewrite <- (wf_batch_len _ Tw) in Hx. apply nth_error_lt in Hx as [p Hpp].
      destruct (batch_get s h i p Tw Hc Hsh Hpp) as [v Hv]. eauto. }
    assert (Elog : forall i v, nth_error (a_data h) i = Some v ->
              log0 s0 i (evs ++ [CIter h]) =
              mkLog [] (past (log0 s0 i evs) ++ [(v, pending (log0 s0 i evs))])).
    { intros i v Hv. rewrite log0_snoc. cbn [log_step]. now rewrite Hv. }
    constructor; auto.
    + intros i k Hk. rewrite (cm_keys_u _ _ _ C) in Hk. rewrite (cm_upd _ _ _ C k Hk).
      rewrite log0_snoc. cbn [log_step]. destruct (nth_error (a_data h) i); reflexivity.
    + intros i x Hx. destruct (Hpget i x Hx) as (p & v & Hpp & Hv).
      rewrite (cm_p _ _ _ C i p v Hpp Hv) in Hx. apply Some_inj in Hx; subst x.
      rewrite (Elog i v Hv), hs_of_snoc, <- next_p_spec, Np by assumption.
      now rewrite <- (Tpr i p Hpp).
    + intros i x Hx.
      assert (Hx' : exists y, nth_error (a_data (probabilities s')) i = Some y).
      { apply nth_error_lt. apply nth_error_some_lt in Hx. rewrite (wf_batch_len _ Hw').
        pose proof (wf_r _ Hw') as X. unfold awf, twf in X. unfold a_data in Hx. rewrite X in Hx.
        pose proof (wf_r_shape _ Hw') as Y. unfold a_shape in Y. now rewrite Y in Hx. }
      destruct Hx' as [y Hy]. destruct (Hpget i y Hy) as (p & v & Hpp & Hv).
      destruct (batch_get s _ i p Tw (wf_r _ Tw) (wf_r_shape _ Tw) Hpp) as [r Hrr].
      rewrite (cm_r _ _ _ C i p r v Hpp Hrr Hv) in Hx. apply Some_inj in Hx; subst x.
      rewrite (Elog i v Hv), hs_of_snoc, <- next_r_spec, Nr by assumption.
      now rewrite <- (Tpr i p Hpp), <- (Tr i r Hrr).
    + intros i x Hx.
      assert (Hx' : exists y, nth_error (a_data (probabilities s')) i = Some y).
      { apply nth_error_lt. apply nth_error_some_lt in Hx. rewrite (wf_batch_len _ Hw').
        pose proof (wf_i _ Hw') as X. unfold awf, twf in X. unfold a_data in Hx. rewrite X in Hx.
        pose proof (wf_i_shape _ Hw') as Y. unfold a_shape in Y. now rewrite Y in Hx. }
      destruct Hx' as [y Hy]. destruct (Hpget i y Hy) as (p & v & Hpp & Hv).
      destruct (batch_get s _ i p Tw (wf_i _ Tw) (wf_i_shape _ Tw) Hpp) as [n Hn].
      rewrite (cm_i _ _ _ C i p n Hpp Hn) in Hx. apply Some_inj in Hx; subst x.
      rewrite (Elog i v Hv), hs_of_snoc, <- next_i_spec, Ni by assumption.
      now rewrite <- (Tpr i p Hpp), <- (Ti i n Hn).
    + intros k t' d Ht' Hd' l a' dl Ha' Hdl R HR j av' dv Hav' Hdv.
      assert (Hin : In k (dkeys (accumulators s))) by (rewrite <- (cm_keys_a _ _ _ C); apply dget_keys; eauto).
      apply dget_keys in Hin as [t Ht].
      destruct (cm_acc _ _ _ C k t Ht) as (u & x & Hu & Hx & Hal & Hlu & Heff).
      assert (x = t') by congruence. subst x.
      destruct (nth_error_same_length _ (leaves t) _ _ (alike_len _ _ Hal) Ha') as [a Ha].
      destruct (nth_error_same_length _ (leaves u) _ _ (eq_sym Hlu) Ha) as [ul Hul].
      pose proof (alike_nth _ _ _ _ _ Hal Ha' Ha) as Hsg. injection Hsg as Hs1 _.
      destruct (Forall_nth _ _ _ _ (wf_acc _ Tw _ _ Ht) Ha) as (Haw & _).
      destruct (Forall_nth _ _ _ _ (wf_acc _ Hw' _ _ Ht') Ha') as (Haw' & _).
      destruct (ready_leaf s k t u l a ul Tw Tp Hrd Ht Hu Ha Hul) as [Us Ul].
      assert (Hla : length (a_data a') = length (a_data a)).
      { unfold awf, twf in Haw, Haw'. unfold a_data. rewrite Haw, Haw'. unfold a_shape in Hs1. now rewrite Hs1. }
      destruct (nth_error_same_length _ (a_data a) _ _ Hla Hav') as [av Hav].
      destruct (nth_error_same_length _ (a_data ul) _ _ (eq_sym Ul) Hav) as [uv Huv].
      assert (HRa : a_shape a = batch_shape s ++ R) by congruence.
      assert (Hib : exists p, nth_error (a_data (probabilities s)) (j / size R) = Some p).
      { apply nth_error_lt. rewrite (wf_batch_len s Tw).
        unfold awf, twf in Haw. fold (a_shape a) in Haw. rewrite HRa in Haw.
        now destruct (size_pos_nth _ _ _ _ _ Haw Hav). }
      destruct Hib as [p Hpp]. destruct (batch_get s h _ p Tw Hc Hsh Hpp) as [v Hv].
      rewrite (Heff l a ul a' Ha Hul Ha' R HRa j av uv p v Hav Huv Hpp Hv) in Hav'.
      apply Some_inj in Hav'; subst av'.
      destruct (Ta k t d Ht Hd' l a dl Ha Hdl R ltac:(congruence) j av dv Hav Hdv) as (us & Hus & Eav).
      exists (us ++ [uv]). rewrite (Elog _ v Hv), hs_of_snoc. cbn [past]. split.
      * rewrite !map_app, Hus. f_equal. cbn [map snd]. f_equal. unfold update_at.
        assert (Hinu : In k (dkeys (updates s))) by (apply dget_keys; eauto).
        pose proof (Tsl (j / size R) k Hinu) as Hsl. rewrite Hu in Hsl.
        destruct (Hrd k t Ht) as (u1 & Hu1 & Hnn & _). assert (u1 = u) by congruence. subst u1.
        destruct (dget k (pending (log0 s0 (j / size R) evs))) as [u2|].
        -- assert (u2 = u) by congruence. subst u2. rewrite Hul. exact Huv.
        -- assert (u = tnone) by congruence. subst u. discriminate.
      * rewrite <- next_a_spec; try assumption.
        -- rewrite <- Eav, <- (Tpr _ p Hpp). apply Na.
        -- unfold hs_of, effective. rewrite !map_length. apply map_some_length in Hus.
           now rewrite map_length in Hus.
  - (* reset_batches *)
    destruct (reset_effect s s' Tw H) as [C _].
    assert (Hpget : forall i x, nth_error (a_data (probabilities s')) i = Some x ->
              exists p, nth_error (a_data (probabilities s)) i = Some p).
    { intros i x Hx. apply nth_error_some_lt in Hx. rewrite (wf_batch_len _ Hw'), EB' in Hx.
      rewrite <- (wf_batch_len _ Tw) in Hx. now apply nth_error_lt in Hx. }
    assert (Elog : forall i, log0 s0 i (evs ++ [CReset]) =
              if act_halted (thr s0) (hs_of s0 (log0 s0 i evs))
              then mkLog (pending (log0 s0 i evs)) [] else log0 s0 i evs).
    { intros i. rewrite log0_snoc. reflexivity. }
    assert (Hh : forall i p, nth_error (a_data (probabilities s)) i = Some p ->
              halted_at s p = act_halted (thr s0) (hs_of s0 (log0 s0 i evs))).
    { intros i p Hpp. rewrite Nh, (Tpr i p Hpp). now apply halted_spec. }
    assert (Hkept : forall i p v, nth_error (a_data (probabilities s)) i = Some p ->
              kept s p v = if act_halted (thr s0) (hs_of s0 (log0 s0 i evs)) then 0%Qc else v).
    { intros i p v Hpp. unfold kept. rewrite (Hh i p Hpp).
      destruct (act_halted _ _); cbn [negb v_of_bool v_mul v_zero v_one QcNum]; qring. }
    constructor; auto.
    + intros i k Hk. rewrite (rs_upd _ _ C) in *. rewrite (Tsl i k Hk), Elog.
      destruct (act_halted _ _); reflexivity.
    + intros i x Hx. destruct (Hpget i x Hx) as [p Hpp].
      rewrite (rs_p _ _ C i p Hpp), (Hkept i p p Hpp) in Hx. apply Some_inj in Hx; subst x. rewrite Elog.
      destruct (act_halted (thr s0) (hs_of s0 (log0 s0 i evs))); [reflexivity|]. now apply Tpr.
    + intros i x Hx.
      assert (Hx' : exists y, nth_error (a_data (probabilities s')) i = Some y).
      { apply nth_error_lt. apply nth_error_some_lt in Hx. rewrite (wf_batch_len _ Hw').
        pose proof (wf_r _ Hw') as X. unfold awf, twf in X. unfold a_data in Hx. rewrite X in Hx.
        pose proof (wf_r_shape _ Hw') as Y. unfold a_shape in Y. now rewrite Y in Hx. }
      destruct Hx' as [y Hy]. destruct (Hpget i y Hy) as [p Hpp].
      destruct (batch_get s _ i p Tw (wf_r _ Tw) (wf_r_shape _ Tw) Hpp) as [r Hrr].
      rewrite (rs_r _ _ C i p r Hpp Hrr), (Hkept i p r Hpp) in Hx. apply Some_inj in Hx; subst x. rewrite Elog.
      destruct (act_halted (thr s0) (hs_of s0 (log0 s0 i evs))); [reflexivity|]. now apply Tr.
    + intros i x Hx.
      assert (Hx' : exists y, nth_error (a_data (probabilities s')) i = Some y).
      { apply nth_error_lt. apply nth_error_some_lt in Hx. rewrite (wf_batch_len _ Hw').
        pose proof (wf_i _ Hw') as X. unfold awf, twf in X. unfold a_data in Hx. rewrite X in Hx.
        pose proof (wf_i_shape _ Hw') as Y. unfold a_shape in Y. now rewrite Y in Hx. }
      destruct Hx' as [y Hy]. destruct (Hpget i y Hy) as [p Hpp].
      destruct (batch_get s _ i p Tw (wf_i _ Tw) (wf_i_shape _ Tw) Hpp) as [n Hn].
      rewrite (rs_i _ _ C i p n Hpp Hn), (Hkept i p n Hpp) in Hx. apply Some_inj in Hx; subst x. rewrite Elog.
      destruct (act_halted (thr s0) (hs_of s0 (log0 s0 i evs))); [reflexivity|]. now apply Ti.
    + intros k t' d Ht' Hd' l a' dl Ha' Hdl R HR j av' dv Hav' Hdv.
      assert (Hin : In k (dkeys (accumulators s))) by (rewrite <- (rs_keys _ _ C); apply dget_keys; eauto).
      apply dget_keys in Hin as [t Ht].
      assert (Hds : dget k (defaults s) = Some d) by (rewrite (sf_def _ _ Tf); exact Hd').
      destruct (rs_acc _ _ C k t d Ht Hds) as (x & Hx & Hal & Heff).
      assert (x = t') by congruence. subst x.
      destruct (nth_error_same_length _ (leaves t) _ _ (alike_len _ _ Hal) Ha') as [a Ha].
      pose proof (alike_nth _ _ _ _ _ Hal Ha' Ha) as Hsg. injection Hsg as Hs1 _.
      destruct (Forall_nth _ _ _ _ (wf_acc _ Tw _ _ Ht) Ha) as (Haw & _).
      destruct (Forall_nth _ _ _ _ (wf_acc _ Hw' _ _ Ht') Ha') as (Haw' & _).
      assert (Hla : length (a_data a') = length (a_data a)).
      { unfold awf, twf in Haw, Haw'. unfold a_data. rewrite Haw, Haw'. unfold a_shape in Hs1. now rewrite Hs1. }
      destruct (nth_error_same_length _ (a_data a) _ _ Hla Hav') as [av Hav].
      assert (HRa : a_shape a = batch_shape s ++ R) by congruence.
      assert (Hib : exists p, nth_error (a_data (probabilities s)) (j / size R) = Some p).
      { apply nth_error_lt. rewrite (wf_batch_len s Tw).
        unfold awf, twf in Haw. fold (a_shape a) in Haw. rewrite HRa in Haw.
        now destruct (size_pos_nth _ _ _ _ _ Haw Hav). }
      destruct Hib as [p Hpp].
      rewrite (Heff l a dl a' Ha Hdl Ha' R HRa j av dv p Hav Hdv Hpp), (Hh _ p Hpp) in Hav'.
      rewrite Elog.
      destruct (act_halted (thr s0) (hs_of s0 (log0 s0 (j / size R) evs))) eqn:Eh.
      * apply Some_inj in Hav'; subst av'. exists []. split; [reflexivity|]. symmetry. apply Qcplus_0_r.
      * apply Some_inj in Hav'; subst av'. apply (Ta k t d Ht Hd' l a dl Ha Hdl R ltac:(congruence) j av dv Hav Hdv).
Qed.

Lemma tracks_run (s0 s : st) evs cs :
  (0 < epsilon s0)%Qc -> (epsilon s0 <= 1)%Qc -> (0 <= depression_constant s0)%Qc ->
  tracks s0 s evs -> Forall call_wf cs -> tracks s0 (run s cs) (evs ++ returned s cs).
Proof.
  intros He He1 Hd. revert s evs. induction cs as [|c cs IH]; intros s evs T Hc.
  - cbn. now rewrite app_nil_r.
  - inversion Hc as [|? ? H1 H2]; subst. rewrite run_cons. unfold after. cbn [returned].
    destruct (apply_call s c) as [s'|e] eqn:E; [|now apply IH].
    replace (evs ++ c :: returned s' cs) with ((evs ++ [c]) ++ returned s' cs) by now rewrite <- app_assoc.
    apply IH; [|assumption]. eapply tracks_step; eauto.
Qed.
Theorem run_tracks (s0 : st) cs :
  (0 < epsilon s0)%Qc -> (epsilon s0 <= 1)%Qc -> (0 <= depression_constant s0)%Qc ->
  wf s0 -> fresh s0 -> Forall call_wf cs -> tracks s0 (run s0 cs) (returned s0 cs).
Proof.
  intros He He1 Hd Hw Hf Hc. apply (tracks_run s0 s0 [] cs); auto. now apply tracks_init.
Qed.
