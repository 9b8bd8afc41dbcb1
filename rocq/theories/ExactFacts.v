(** * Consequences in exact arithmetic: ranges, permanence, reset, depression, liveness. *)
From Coq Require Import QArith Qcanon.
From Verif Require Import Base PyTree Tensor Num Utils States Controller Wf Spec History ElementSpec.
From Verif Require Import BaseFacts PyTreeFacts TensorFacts ControllerFacts IterateFacts ResetFacts
  HistoryFacts AgreeFacts QcFacts SpecFacts GravesFacts.
Close Scope Qc_scope.
Open Scope nat_scope.

Section Generic.
  Context {N : numsys}.
  Notation st := (state N).

  Lemma iter_inv (s : st) h s' i x :
    wf s -> wf_pending s -> awf h -> iterate_act s h = Ok s' ->
    nth_error (a_data (probabilities s')) i = Some x ->
    exists p v, nth_error (a_data (probabilities s)) i = Some p /\ nth_error (a_data h) i = Some v /\
      x = next_p s p v.
  Proof.
    intros Hw Hp Ha H Hx. destruct (iterate_committed s h s' Hw Hp Ha H) as (C & Hw' & _).
    pose proof (iterate_ok_iff s h Hw Hp Ha) as [Hok _]. destruct Hok as (Hsh & _); [eauto|].
    pose proof (nth_error_some_lt _ _ _ Hx) as Hlt.
    rewrite (wf_batch_len _ Hw'), (committed_frame _ _ _ C), <- (wf_batch_len _ Hw) in Hlt.
    apply nth_error_lt in Hlt as [p Hpp]. destruct (batch_get s h i p Hw Ha Hsh Hpp) as [v Hv].
    exists p, v. rewrite (cm_p _ _ _ C i p v Hpp Hv) in Hx. repeat split; auto. congruence.
  Qed.
  Lemma reset_inv (s s' : st) i x :
    wf s -> reset_batches s = Ok s' -> nth_error (a_data (probabilities s')) i = Some x ->
    exists p, nth_error (a_data (probabilities s)) i = Some p /\ x = kept s p p.
  Proof.
    intros Hw H Hx. destruct (reset_effect s s' Hw H) as [C Hw'].
    pose proof (nth_error_some_lt _ _ _ Hx) as Hlt.
    pose proof (rs_p_sig _ _ C) as Es. injection Es as Es _.
    rewrite (wf_batch_len _ Hw') in Hlt. unfold batch_shape in Hlt. rewrite Es in Hlt.
    fold (batch_shape s) in Hlt. rewrite <- (wf_batch_len _ Hw) in Hlt.
    apply nth_error_lt in Hlt as [p Hpp]. exists p. split; [assumption|].
    rewrite (rs_p _ _ C i p Hpp) in Hx. congruence.
  Qed.
  Lemma cache_same (s : st) name item s' :
    cache_update s name item = Ok s' ->
    s' = with_updates s (dset name item (updates s)).
  Proof.
    rewrite cache_update_char. destruct (dget name (updates s)) as [u|]; [|discriminate].
    destruct (is_none u); congruence.
  Qed.

  (** Reading [halted_batches]. *)
  Lemma halted_get (s : st) i p : nth_error (a_data (probabilities s)) i = Some p ->
    nth_error (data (halted_batches s)) i = Some (halted_at s p).
  Proof. intros H. rewrite halted_data, nth_error_map, H. reflexivity. Qed.
  Lemma halted_get_inv (s : st) i b : nth_error (data (halted_batches s)) i = Some b ->
    exists p, nth_error (a_data (probabilities s)) i = Some p /\ b = halted_at s p.
  Proof.
    rewrite halted_data, nth_error_map. destruct (nth_error (a_data (probabilities s)) i) as [p|]; [|discriminate].
    intros E. exists p. split; [reflexivity|]. cbn in E. congruence.
  Qed.
  Lemma completely_halted_iff (s : st) :
    is_completely_halted s = true <->
    forall i b, nth_error (data (halted_batches s)) i = Some b -> b = true.
  Proof.
    unfold is_completely_halted, tall. rewrite forallb_forall. split.
    - intros H i b Hb. apply H. eapply nth_error_In; eauto.
    - intros H b Hb. apply In_nth_error in Hb as [i Hi]. eauto.
  Qed.
  Lemma any_halted_iff (s : st) :
    is_any_halted s = true <-> exists i, nth_error (data (halted_batches s)) i = Some true.
  Proof.
    unfold is_any_halted, tany. rewrite existsb_exists. split.
    - intros (b & Hb & E). subst b. now apply In_nth_error in Hb.
    - intros (i & Hi). exists true. split; [|reflexivity]. eapply nth_error_In; eauto.
  Qed.
End Generic.

(** ** Ranges and monotonicity (C01) *)

Lemma next_p_range (s : st) p v :
  (0 <= epsilon s)%Qc -> (0 <= depression_constant s)%Qc -> in01 p ->
  (p <= next_p s p v)%Qc /\ (next_p s p v <= 1)%Qc.
Proof.
  intros He Hd [H0 H1]. pose proof (scaled_nonneg s Hd v) as Hs.
  unfold next_p, weight, halts_now, threshold. cbn [v_ltb v_add v_sub v_one v_of_scl s_one_sub QcNum].
  revert Hs. generalize (scaled s v). intros x Hx. revert He. generalize (epsilon s). intros e He.
  cbn [val scl QcNum] in *. destruct (Qcltb (1 - e) (x + p)) eqn:E; qcb.
  - split; revert H0 H1; qc.
  - split; revert H0 H1 Hx He E; qc.
Qed.
Lemma kept_cases (s : st) p v : kept s p v = if halted_at s p then 0%Qc else v.
Proof. unfold kept. destruct (halted_at s p); cbn [negb v_of_bool v_mul v_zero v_one QcNum]; qring. Qed.

Lemma after_range (s : st) c :
  wf s -> wf_pending s -> call_wf c -> (0 <= epsilon s)%Qc -> (0 <= depression_constant s)%Qc ->
  (forall i p, nth_error (a_data (probabilities s)) i = Some p -> in01 p) ->
  forall i p p', nth_error (a_data (probabilities s)) i = Some p ->
    nth_error (a_data (probabilities (after s c))) i = Some p' ->
    in01 p' /\ ((p <= p')%Qc \/ (c = CReset /\ halted_at s p = true /\ p' = 0%Qc)).
Proof.
  intros Hw Hp Hc He Hd Hr i p p' Hpi. unfold after. destruct (apply_call s c) as [s'|e] eqn:E.
  2:{ intros H. assert (p = p') by congruence. subst p'. split; [eauto|]. left. apply Qcle_refl. }
  intros Hp'. pose proof (Hr i p Hpi) as Hin. destruct c as [name item|h|]; cbn [apply_call call_wf] in *.
  - apply cache_same in E. subst s'. cbn [with_updates probabilities] in Hp'.
    assert (p = p') by congruence. subst p'. split; [assumption|]. left. apply Qcle_refl.
  - destruct (iter_inv s h s' i p' Hw Hp Hc E Hp') as (q & v & Hq & Hv & ->).
    assert (q = p) by congruence. subst q. destruct (next_p_range s p v He Hd Hin) as [A B].
    split; [|left; exact A]. split; [|exact B]. destruct Hin as [H0 _]. eapply Qcle_trans; eauto.
  - destruct (reset_inv s s' i p' Hw E Hp') as (q & Hq & ->).
    assert (q = p) by congruence. subst q. rewrite kept_cases. destruct (halted_at s p) eqn:Eh.
    + split; [split; discriminate|]. right. auto.
    + split; [assumption|]. left. apply Qcle_refl.
Qed.
Lemma after_get (s : st) c i p' :
  wf s -> wf_pending s -> call_wf c -> nth_error (a_data (probabilities (after s c))) i = Some p' ->
  exists p, nth_error (a_data (probabilities s)) i = Some p.
Proof.
  intros Hw Hp Hc H. destruct (after_wf s c Hw Hp Hc) as [Hw' _].
  pose proof (frame_batch _ _ (after_frame s c Hw Hp Hc)) as EB.
  apply nth_error_some_lt in H. rewrite (wf_batch_len _ Hw'), EB, <- (wf_batch_len _ Hw) in H.
  now apply nth_error_lt.
Qed.
Theorem run_range (s : st) cs :
  wf s -> wf_pending s -> Forall call_wf cs -> (0 <= epsilon s)%Qc -> (0 <= depression_constant s)%Qc ->
  (forall i p, nth_error (a_data (probabilities s)) i = Some p -> in01 p) ->
  forall i p, nth_error (a_data (probabilities (run s cs))) i = Some p -> in01 p.
Proof.
  revert s. induction cs as [|c cs IH]; intros s Hw Hp Hc He Hd Hr; [exact Hr|].
  inversion Hc as [|? ? H1 H2]; subst. rewrite run_cons. destruct (after_wf s c Hw Hp H1) as [Hw' Hp'].
  pose proof (after_frame s c Hw Hp H1) as F. apply IH; auto.
  - rewrite (sf_eps _ _ F). assumption.
  - rewrite (sf_dep _ _ F). assumption.
  - intros i p Hpi. destruct (after_get s c i p Hw Hp H1 Hpi) as [q Hq].
    exact (proj1 (after_range s c Hw Hp H1 He Hd Hr i q p Hq Hpi)).
Qed.
Theorem run_monotone (s : st) cs c :
  wf s -> wf_pending s -> Forall call_wf cs -> call_wf c ->
  (0 <= epsilon s)%Qc -> (0 <= depression_constant s)%Qc ->
  (forall i p, nth_error (a_data (probabilities s)) i = Some p -> in01 p) ->
  forall i p p', nth_error (a_data (probabilities (run s cs))) i = Some p ->
    nth_error (a_data (probabilities (run s (cs ++ [c])))) i = Some p' ->
    (p <= p')%Qc \/ (c = CReset /\ nth_error (data (halted_batches (run s cs))) i = Some true /\ p' = 0%Qc).
Proof.
  intros Hw Hp Hc H1 He Hd Hr i p p' Hpi Hpi'. rewrite run_app in Hpi'. cbn [run fold_left] in Hpi'.
  destruct (run_wf s cs Hw Hp Hc) as [Hw' Hp'']. pose proof (run_frame s cs Hw Hp Hc) as F.
  destruct (after_range (run s cs) c Hw' Hp'' H1) with (i := i) (p := p) (p' := p') as [_ [A|(A & B & C)]]; auto.
  - rewrite (sf_eps _ _ F). assumption.
  - rewrite (sf_dep _ _ F). assumption.
  - now apply run_range.
  - right. repeat split; auto. erewrite halted_get by eauto. now rewrite B.
Qed.

(** ** Halting is permanent (C04) *)
Lemma next_p_halted (s : st) p v :
  (0 < epsilon s)%Qc -> (0 <= depression_constant s)%Qc -> halted_at s p = true ->
  next_p s p v = 1%Qc /\ halted_at s (next_p s p v) = true.
Proof.
  intros He Hd Hh. pose proof (scaled_nonneg s Hd v) as Hs.
  assert (E : next_p s p v = 1%Qc).
  { revert Hh. unfold next_p, weight, halts_now, halted_at, threshold.
    cbn [v_ltb v_add v_sub v_one v_of_scl s_one_sub QcNum].
    revert Hs. generalize (scaled s v). intros x Hx. generalize (epsilon s). intros e Hh.
    cbn [val scl QcNum] in *. destruct (Qcltb (1 - e) (x + p)) eqn:E; qcb.
    - qring.
    - exfalso. revert Hx Hh E. qc. }
  split; [exact E|]. rewrite E. unfold halted_at, threshold. cbn [v_ltb v_of_scl s_one_sub QcNum].
  apply Qcltb_lt. revert He. generalize (epsilon s). cbn [scl QcNum]. qc.
Qed.
Definition no_reset (c : call QcNum) : Prop := c <> CReset.
Lemma after_halted (s : st) c i :
  wf s -> wf_pending s -> call_wf c -> no_reset c ->
  (0 < epsilon s)%Qc -> (0 <= depression_constant s)%Qc ->
  nth_error (data (halted_batches s)) i = Some true ->
  nth_error (data (halted_batches (after s c))) i = Some true.
Proof.
  intros Hw Hp Hc Hn He Hd H. unfold after. destruct (apply_call s c) as [s'|e] eqn:E; [|assumption].
  apply halted_get_inv in H as (p & Hpp & Hh). symmetry in Hh.
  destruct c as [name item|h|]; cbn [apply_call call_wf] in *.
  - apply cache_same in E. subst s'. rewrite (halted_get _ i p) by exact Hpp.
    unfold halted_at, threshold in *. cbn [with_updates epsilon]. now rewrite Hh.
  - destruct (iterate_committed s h s' Hw Hp Hc E) as (C & Hw' & _).
    pose proof (iterate_ok_iff s h Hw Hp Hc) as [Hok _]. destruct Hok as (Hsh & _); [eauto|].
    destruct (batch_get s h i p Hw Hc Hsh Hpp) as [v Hv].
    rewrite (halted_get _ i _ (cm_p _ _ _ C i p v Hpp Hv)).
    destruct (next_p_halted s p v He Hd Hh) as [_ Hx]. unfold halted_at, threshold in *.
    now rewrite (cm_eps _ _ _ C), Hx.
  - now exfalso.
Qed.
Theorem run_halted (s : st) cs i :
  wf s -> wf_pending s -> Forall call_wf cs -> Forall no_reset cs ->
  (0 < epsilon s)%Qc -> (0 <= depression_constant s)%Qc ->
  nth_error (data (halted_batches s)) i = Some true ->
  nth_error (data (halted_batches (run s cs))) i = Some true.
Proof.
  revert s. induction cs as [|c cs IH]; intros s Hw Hp Hc Hn He Hd H; [exact H|].
  inversion Hc as [|? ? H1 H2]; inversion Hn as [|? ? N1 N2]; subst. rewrite run_cons.
  destruct (after_wf s c Hw Hp H1) as [Hw' Hp']. pose proof (after_frame s c Hw Hp H1) as F.
  apply IH; auto.
  - rewrite (sf_eps _ _ F). assumption.
  - rewrite (sf_dep _ _ F). assumption.
  - now apply after_halted.
Qed.

(** ** Graves' ACT over histories (C05, C06, C07, C20) *)
Section Graves.
  Context (s0 : st) (cs : list (call QcNum))
    (He : (0 < epsilon s0)%Qc) (He1 : (epsilon s0 <= 1)%Qc) (Hd : (0 <= depression_constant s0)%Qc)
    (Hw : wf s0) (Hf : fresh s0) (Hc : Forall call_wf cs).
  Local Notation s := (run s0 cs).
  Local Notation hs i := (element_hs s0 i cs).
  Local Notation H i := (element_log s0 i cs).

  Lemma tracked : tracks s0 s (returned s0 cs).
  Proof using All. now apply run_tracks. Qed.

  Theorem graves_statistics i :
    (forall p, nth_error (a_data (probabilities s)) i = Some p -> p = act_probability (thr s0) (hs i)) /\
    (forall r, nth_error (a_data (residuals s)) i = Some r -> r = act_residual (thr s0) (hs i)) /\
    (forall n, nth_error (a_data (iterations s)) i = Some n -> n = Qc_of_nat (act_iterations (thr s0) (hs i))).
  Proof using All.
    pose proof tracked as T. split; [|split].
    - apply (tk_p _ _ _ T).
    - apply (tk_r _ _ _ T).
    - apply (tk_i _ _ _ T).
  Qed.
  Theorem graves_halted i b :
    nth_error (data (halted_batches s)) i = Some b -> b = act_halted (thr s0) (hs i).
  Proof using All.
    intros H. apply halted_get_inv in H as (p & Hp & ->).
    destruct (graves_statistics i) as (P & _). rewrite (P p Hp).
    pose proof (run_frame s0 cs Hw (fresh_pending _ Hf) Hc) as F.
    unfold halted_at, threshold. rewrite (sf_eps _ _ F).
    apply (halted_spec s0 He He1).
  Qed.
  Theorem graves_accumulators k t d l a dl R j av dv :
    dget k (accumulators s) = Some t -> dget k (defaults s0) = Some d ->
    nth_error (leaves t) l = Some a -> nth_error (leaves d) l = Some dl ->
    a_shape a = batch_shape s0 ++ R ->
    nth_error (a_data a) j = Some av -> nth_error (a_data dl) j = Some dv ->
    exists us : list Qc,
      map (fun e => update_at k l j (snd e)) (past (H (j / size R))) = map Some us /\
      av = (dv + dot (act_weights (thr s0) (hs (j / size R))) us)%Qc.
  Proof using All.
    intros Ht Hdd Hl Hdl HR Hav Hdv. exact (tk_acc _ _ _ tracked k t d Ht Hdd l a dl Hl Hdl R HR j av dv Hav Hdv).
  Qed.
  Lemma hs_nonneg i : Forall (fun h => (0 <= h)%Qc) (hs i).
  Proof using Hd.
    unfold element_hs, effective. apply Forall_forall. intros x Hx. apply in_map_iff in Hx as (v & <- & _).
    apply Qcmult_nonneg; [assumption|apply clamp_range].
  Qed.
  Theorem graves_weights i :
    Forall (fun w => (0 <= w)%Qc) (act_weights (thr s0) (hs i)) /\
    (nth_error (data (halted_batches s)) i = Some true -> total (act_weights (thr s0) (hs i)) = 1%Qc).
  Proof using All.
    destruct (thr_bounds s0 He He1) as [T0 T1]. split.
    - apply act_weights_nonneg; [assumption|now apply Qclt_le_weak|apply hs_nonneg].
    - intros Hh. apply graves_halted in Hh. change (act_probability (thr s0) (hs i) = 1%Qc).
      rewrite act_probability_cases, <- Hh. reflexivity.
  Qed.
  Theorem graves_convex k t d l a dl R j av dv lo hi :
    dget k (accumulators s) = Some t -> dget k (defaults s0) = Some d ->
    nth_error (leaves t) l = Some a -> nth_error (leaves d) l = Some dl ->
    a_shape a = batch_shape s0 ++ R ->
    nth_error (a_data a) j = Some av -> nth_error (a_data dl) j = Some dv ->
    nth_error (data (halted_batches s)) (j / size R) = Some true ->
    (forall e u, In e (past (H (j / size R))) -> update_at k l j (snd e) = Some u -> (lo <= u /\ u <= hi)%Qc) ->
    (lo <= av - dv /\ av - dv <= hi)%Qc.
  Proof using All.
    intros Ht Hdd Hl Hdl HR Hav Hdv Hh Hb.
    destruct (graves_accumulators k t d l a dl R j av dv Ht Hdd Hl Hdl HR Hav Hdv) as (us & Hus & Eav).
    destruct (graves_weights (j / size R)) as [Wn Wt]. specialize (Wt Hh).
    assert (Hl2 : length (act_weights (thr s0) (hs (j / size R))) = length us).
    { rewrite act_weights_length. unfold element_hs, effective. rewrite !map_length.
      apply (f_equal (@length _)) in Hus. now rewrite !map_length in Hus. }
    assert (Hus2 : Forall (fun u => (lo <= u /\ u <= hi)%Qc) us).
    { apply Forall_forall. intros u Hu. assert (X : In (Some u) (map Some us)) by now apply in_map.
      rewrite <- Hus in X. apply in_map_iff in X as (e & E1 & E2). eapply Hb; eauto. }
    destruct (dot_bounds _ _ _ _ Hl2 Wn Hus2) as [D1 D2]. rewrite Wt in D1, D2.
    assert (Ex : (av - dv = dot (act_weights (thr s0) (hs (j / size R))) us)%Qc).
    { rewrite Eav. cbn [val QcNum]. generalize (dot (act_weights (thr s0) (hs (j / size R))) us).
      intros x. clear -x. cbn [val QcNum] in dv. revert dv x. qc. }
    rewrite Ex. rewrite !Qcmult_1_r in D1, D2. split; assumption.
  Qed.
  (** residual: zero until halting, then the weight of the halting step *)
  Theorem graves_residual_range i r :
    nth_error (a_data (residuals s)) i = Some r -> (0 <= r /\ r <= 1)%Qc /\
    (nth_error (data (halted_batches s)) i = Some false -> r = 0%Qc).
  Proof using All.
    intros Hr. destruct (graves_statistics i) as (_ & R & _). rewrite (R r Hr). unfold act_residual.
    destruct (thr_bounds s0 He He1) as [T0 T1].
    destruct (halting_step (thr s0) 0 (hs i)) as [n|] eqn:E.
    - split; [|intros Hh; apply graves_halted in Hh; unfold act_halted in Hh; rewrite E in Hh; discriminate].
      apply halting_step_first in E as (Hn & _ & Hm).
      pose proof (total_nonneg _ (firstn_nonneg n _ (hs_nonneg i))) as Hnn.
      assert (Hle : (total (firstn n (hs i)) <= thr s0)%Qc).
      { destruct n as [|n]; [exact T0|]. apply Hm. lia. }
      revert Hnn Hle T1. generalize (total (firstn n (hs i))) (thr s0). split; revert Hnn Hle T1; qc.
    - split; [split; discriminate|reflexivity].
  Qed.
  Theorem graves_mass i b :
    nth_error (data (halted_batches s)) i = Some b ->
    (b = true <-> (thr s0 < total (hs i))%Qc).
  Proof using All.
    intros Hb. rewrite (graves_halted i b Hb). destruct (thr_bounds s0 He He1) as [T0 T1]. split.
    - intros Hh. unfold act_halted in Hh. destruct (halting_step (thr s0) 0 (hs i)) as [n|] eqn:E; [|discriminate].
      apply halting_step_first in E as (Hn & Hx & _). eapply Qclt_le_trans; [exact Hx|].
      rewrite <- (firstn_skipn (S n) (hs i)) at 2. rewrite total_app.
      assert (Hnn : (0 <= total (skipn (S n) (hs i)))%Qc).
      { apply total_nonneg. apply Forall_forall. intros x Hx'. pose proof (hs_nonneg i) as F.
        rewrite Forall_forall in F. apply F. rewrite <- (firstn_skipn (S n) (hs i)). apply in_or_app. now right. }
      revert Hnn. generalize (total (skipn (S n) (hs i))) (total (firstn (S n) (hs i))). qc.
    - intros Hx. now apply mass_halts.
  Qed.
End Graves.
