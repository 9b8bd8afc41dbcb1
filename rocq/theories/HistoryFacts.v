(** * Histories: facts for every arithmetic. *)
From Verif Require Import Base PyTree Tensor Num Utils States Controller Wf Spec History ElementSpec.
From Verif Require Import BaseFacts PyTreeFacts TensorFacts ControllerFacts IterateFacts ResetFacts.

Section Generic.
  Context {N : numsys}.
  Notation st := (state N).
  Notation tr := (tree (array N)).

  Lemma reset_pending (s s' : st) : wf_pending s -> wf s -> reset_batches s = Ok s' -> wf_pending s'.
  Proof.
    intros Hp Hw H. apply reset_effect in H as [H _]; [|assumption].
    unfold wf_pending. rewrite (rs_upd _ _ H). exact Hp.
  Qed.

  Lemma apply_call_wf (s s' : st) c :
    wf s -> wf_pending s -> call_wf c -> apply_call s c = Ok s' -> wf s' /\ wf_pending s'.
  Proof.
    intros Hw Hp Hc H. destruct c as [name item|h|]; cbn [apply_call call_wf] in *.
    - split; [eapply cache_wf; eauto|eapply cache_pending; eauto].
    - eapply iterate_committed in H; eauto. tauto.
    - split; [now apply reset_effect in H|eapply reset_pending; eauto].
  Qed.
  Lemma after_wf (s : st) c :
    wf s -> wf_pending s -> call_wf c -> wf (after s c) /\ wf_pending (after s c).
  Proof.
    intros Hw Hp Hc. unfold after. destruct (apply_call s c) eqn:E; [|auto].
    eapply apply_call_wf; eauto.
  Qed.
  Lemma run_app (s : st) cs1 cs2 : run s (cs1 ++ cs2) = run (run s cs1) cs2.
  Proof. unfold run. apply fold_left_app. Qed.
  Lemma run_cons (s : st) c cs : run s (c :: cs) = run (after s c) cs.
  Proof. reflexivity. Qed.
  Theorem run_wf (s : st) cs :
    wf s -> wf_pending s -> Forall call_wf cs -> wf (run s cs) /\ wf_pending (run s cs).
  Proof.
    revert s. induction cs as [|c cs IH]; intros s Hw Hp Hc; [split; assumption|].
    inversion Hc as [|? ? H1 H2]; subst. destruct (after_wf s c Hw Hp H1) as [A B].
    rewrite run_cons. now apply IH.
  Qed.

  (** Only the calls that returned matter. *)
  Lemma run_returned (s : st) cs : run s (returned s cs) = run s cs.
  Proof.
    revert s. induction cs as [|c cs IH]; intros s; [reflexivity|]. cbn [returned].
    rewrite (run_cons s c cs). unfold after. destruct (apply_call s c) as [s'|e] eqn:E.
    - rewrite run_cons. unfold after. rewrite E. apply IH.
    - apply IH.
  Qed.
  Lemma returned_app (s : st) cs1 cs2 :
    returned s (cs1 ++ cs2) = returned s cs1 ++ returned (run s cs1) cs2.
  Proof.
    revert s. induction cs1 as [|c cs1 IH]; intros s; [reflexivity|]. cbn [returned app].
    rewrite run_cons. unfold after. destruct (apply_call s c) as [s'|e]; simpl; now rewrite IH.
  Qed.

  (** ** The frame *)
  Lemma same_frame_refl (s : st) : same_frame s s.
  Proof. constructor; try reflexivity. intros k t t' H1 H2. rewrite H1 in H2. inversion H2. apply alike_refl. Qed.
  Lemma same_frame_trans (s1 s2 s3 : st) : same_frame s1 s2 -> same_frame s2 s3 -> same_frame s1 s3.
  Proof.
    intros A B. destruct A as [A1 A2 A3 A4 A5 A6 A7 A8 A9 A10], B as [B1 B2 B3 B4 B5 B6 B7 B8 B9 B10].
    constructor; try congruence. intros k t t' Ht Ht'.
    assert (Hin : In k (dkeys (accumulators s2))) by (rewrite A8; apply dget_keys; eauto).
    apply dget_keys in Hin as [t2 Ht2].
    eapply alike_trans; [eapply B10|eapply A10]; eauto.
  Qed.
  Lemma after_frame (s : st) c : wf s -> wf_pending s -> call_wf c -> same_frame s (after s c).
  Proof.
    intros Hw Hp Hc. unfold after. destruct (apply_call s c) as [s'|e] eqn:E; [|apply same_frame_refl].
    destruct c as [name item|h|]; cbn [apply_call call_wf] in *.
    - rewrite cache_update_char in E. destruct (dget name (updates s)) as [u|] eqn:Eu; [|discriminate].
      destruct (is_none u); [|discriminate]. inversion E; subst s'.
      constructor; try reflexivity.
      + cbn [with_updates updates]. apply dkeys_dset_in, dget_keys. eauto.
      + cbn [with_updates accumulators]. intros k t t' H1 H2. rewrite H1 in H2. inversion H2. apply alike_refl.
    - apply iterate_committed in E as [E _]; auto. destruct E. constructor; auto.
      intros k t t' Ht Ht'. destruct (cm_acc k t Ht) as (u & t1 & _ & H1 & H2 & _).
      rewrite Ht' in H1. inversion H1; subst. assumption.
    - apply reset_effect in E as [E _]; auto. destruct E. constructor; auto; try congruence.
      intros k t t' Ht Ht'. destruct (default_of s k t Hw Ht) as (d & Hd & _).
      destruct (rs_acc k t d Ht Hd) as (t1 & H1 & H2 & _).
      rewrite Ht' in H1. inversion H1; subst. assumption.
  Qed.
  Theorem run_frame (s : st) cs :
    wf s -> wf_pending s -> Forall call_wf cs -> same_frame s (run s cs).
  Proof.
    revert s. induction cs as [|c cs IH]; intros s Hw Hp Hc; [apply same_frame_refl|].
    inversion Hc as [|? ? H1 H2]; subst. rewrite run_cons.
    destruct (after_wf s c Hw Hp H1). apply (same_frame_trans _ (after s c)); [now apply after_frame|now apply IH].
  Qed.

  (** ** Halted elements are frozen *)
  Theorem iterate_frozen (s : st) h s' b p :
    wf s -> wf_pending s -> awf h -> iterate_act s h = Ok s' ->
    nth_error (a_data (probabilities s)) b = Some p -> v_ltb N (v_of_scl N (s_one_sub N (epsilon s))) p = true ->
    nth_error (a_data (residuals s')) b = nth_error (a_data (residuals s)) b /\
    nth_error (a_data (iterations s')) b = nth_error (a_data (iterations s)) b /\
    forall k t t', dget k (accumulators s) = Some t -> dget k (accumulators s') = Some t' ->
      forall l a a', nth_error (leaves t) l = Some a -> nth_error (leaves t') l = Some a' ->
        forall R, a_shape a = batch_shape s ++ R ->
        forall j, j / size R = b -> nth_error (a_data a') j = nth_error (a_data a) j.
  Proof.
    intros Hw Hpd Hh H Hp Hhalt. pose proof (iterate_ok_iff s h Hw Hpd Hh) as Hok.
    destruct Hok as [Hok _]. destruct Hok as (Hsh & _ & Hready); [eauto|].
    destruct (iterate_committed s h s' Hw Hpd Hh H) as (C & Hw' & _). clear H.
    assert (Hlen : b < size (batch_shape s)).
    { rewrite <- (wf_batch_len s Hw). now apply nth_error_some_lt in Hp. }
    assert (Hdata : forall a : array N, awf a -> a_shape a = batch_shape s ->
              exists v, nth_error (a_data a) b = Some v).
    { intros a Ha Hs. apply nth_error_lt. unfold awf, twf in Ha. unfold a_data. rewrite Ha.
      unfold a_shape in Hs. now rewrite Hs. }
    destruct (Hdata h Hh Hsh) as [hv Hhv].
    destruct (Hdata _ (wf_r _ Hw) (wf_r_shape _ Hw)) as [r Hr].
    destruct (Hdata _ (wf_i _ Hw) (wf_i_shape _ Hw)) as [n Hn].
    assert (Hha : halted_at s p = true) by exact Hhalt.
    split; [|split].
    - rewrite (cm_r _ _ _ C b p r hv Hp Hr Hhv), Hr. unfold next_r. now rewrite Hha, andb_false_r.
    - rewrite (cm_i _ _ _ C b p n Hp Hn), Hn. unfold next_i. now rewrite Hha.
    - intros k t t' Ht Ht' l a a' Ha Ha' R HR j Hj.
      destruct (cm_acc _ _ _ C k t Ht) as (u & t1 & Hu & Ht1 & Hal & Hlu & Heff).
      rewrite Ht' in Ht1. inversion Ht1; subst t1. clear Ht1.
      destruct (nth_error_same_length _ (leaves u) l a (eq_sym Hlu) Ha) as [ul Hul].
      pose proof (Forall_nth _ _ _ _ (wf_acc _ Hw _ _ Ht) Ha) as (Haw & _).
      pose proof (Forall_nth _ _ _ _ (wf_acc _ Hw' _ _ Ht') Ha') as (Haw' & _).
      pose proof (alike_nth _ _ _ _ _ Hal Ha' Ha) as Hsg. injection Hsg as Hs1 _.
      destruct (nth_error (a_data a) j) as [av|] eqn:Eav.
      + assert (Hulw : exists uv, nth_error (a_data ul) j = Some uv).
        { apply nth_error_lt. apply nth_error_some_lt in Eav.
          assert (length (a_data ul) = length (a_data a)) as ->; [|exact Eav].
          destruct (Hready k t Ht) as (u1 & Hu1 & _ & Hf). rewrite Hu in Hu1. inversion Hu1; subst u1.
          apply Forall2_nth in Hf as [_ Hf]. destruct (Hf l a ul Ha Hul) as [Hsame _].
          pose proof (Forall_nth _ _ _ _ (Hpd _ _ Hu) Hul) as Hawu.
          unfold awf, twf in Haw, Hawu. unfold a_data. rewrite Haw, Hawu.
          unfold a_shape in Hsame. now rewrite Hsame. }
        destruct Hulw as [uv Huv].
        rewrite (Heff l a ul a' Ha Hul Ha' R HR j av uv p hv Eav Huv).
        * unfold next_a. now rewrite Hha.
        * now rewrite Hj.
        * now rewrite Hj.
      + apply nth_error_None in Eav. apply nth_error_None.
        unfold awf, twf in Haw, Haw'. unfold a_data in *. rewrite Haw'. rewrite Haw in Eav.
        unfold a_shape in Hs1. now rewrite Hs1.
  Qed.
End Generic.
