(** * Processes of different batch shapes agree on corresponding elements (every arithmetic). *)
From Verif Require Import Base PyTree Tensor Num Utils States Controller Wf Spec History ElementSpec SliceSpec.
From Verif Require Import BaseFacts PyTreeFacts TensorFacts ControllerFacts IterateFacts ResetFacts
  HistoryFacts AgreeFacts.

Section Slice.
  Context {N : numsys}.
  Notation st := (state N).
  Notation tr := (tree (array N)).

  Lemma same_row_sym B1 b1 B2 b2 (a1 a2 : array N) :
    same_row B1 b1 B2 b2 a1 a2 -> same_row B2 b2 B1 b1 a2 a1.
  Proof. intros (R & H1 & H2 & H3 & H4). exists R. repeat split; auto. intros j Hj. symmetry. auto. Qed.
  Lemma same_row_tree_sym B1 b1 B2 b2 (t1 t2 : tr) :
    same_row_tree B1 b1 B2 b2 t1 t2 -> same_row_tree B2 b2 B1 b1 t2 t1.
  Proof.
    intros [Hs H]. split; [congruence|]. apply Forall2_nth in H as [Hl H]. apply Forall2_nth.
    split; [congruence|]. intros i x y Hx Hy. apply same_row_sym. eauto.
  Qed.
  Lemma same_row_dict_sym B1 b1 B2 b2 (d1 d2 : dict tr) :
    same_row_dict B1 b1 B2 b2 d1 d2 -> same_row_dict B2 b2 B1 b1 d2 d1.
  Proof. intros [Hk H]. split; [congruence|]. intros k t1 t2 H1 H2. apply same_row_tree_sym. eauto. Qed.
  Lemma same_rows_sym b1 (s1 : st) b2 s2 : same_rows b1 s1 b2 s2 -> same_rows b2 s2 b1 s1.
  Proof.
    intros []. constructor; auto using same_row_sym, same_row_dict_sym.
  Qed.
  Lemma same_row_dict_get B1 b1 B2 b2 (d1 d2 : dict tr) k t1 :
    same_row_dict B1 b1 B2 b2 d1 d2 -> dget k d1 = Some t1 ->
    exists t2, dget k d2 = Some t2 /\ same_row_tree B1 b1 B2 b2 t1 t2.
  Proof.
    intros [Hk H] H1. assert (Hin : In k (dkeys d2)) by (rewrite <- Hk; apply dget_keys; eauto).
    apply dget_keys in Hin as [t2 H2]. eauto.
  Qed.
  Lemma same_row_tree_nth B1 b1 B2 b2 (t1 t2 : tr) i a1 :
    same_row_tree B1 b1 B2 b2 t1 t2 -> nth_error (leaves t1) i = Some a1 ->
    exists a2, nth_error (leaves t2) i = Some a2 /\ same_row B1 b1 B2 b2 a1 a2.
  Proof.
    intros [_ H] H1. apply Forall2_nth in H as [Hl H].
    destruct (nth_error_same_length _ _ _ _ Hl H1) as [a2 H2]. eauto.
  Qed.
  Lemma same_row_batch B1 b1 B2 b2 (a1 a2 : array N) :
    same_row B1 b1 B2 b2 a1 a2 -> a_shape a1 = B1 ->
    nth_error (a_data a1) b1 = nth_error (a_data a2) b2.
  Proof.
    intros (R & H1 & _ & _ & H4) E. rewrite E in H1. rewrite <- (app_nil_r B1) in H1 at 1.
    apply app_inv_head in H1. subst R. specialize (H4 0). rewrite size_nil, !Nat.mul_1_r, !Nat.add_0_r in H4.
    apply H4. lia.
  Qed.
  Lemma same_row_batch_intro B1 b1 B2 b2 (a1 a2 : array N) :
    a_shape a1 = B1 -> a_shape a2 = B2 -> a_dt a1 = a_dt a2 ->
    nth_error (a_data a1) b1 = nth_error (a_data a2) b2 -> same_row B1 b1 B2 b2 a1 a2.
  Proof.
    intros H1 H2 H3 H4. exists []. rewrite !app_nil_r. repeat split; auto.
    intros j Hj. rewrite size_nil in *. assert (j = 0) by lia. subst j.
    now rewrite !Nat.mul_1_r, !Nat.add_0_r.
  Qed.
  (** related arrays: one has the batch shape iff the other does *)
  Lemma same_row_shape B1 b1 B2 b2 (a1 a2 : array N) :
    same_row B1 b1 B2 b2 a1 a2 -> a_shape a1 = B1 -> a_shape a2 = B2.
  Proof.
    intros (R & H1 & H2 & _) E. rewrite E in H1. rewrite <- (app_nil_r B1) in H1 at 1.
    apply app_inv_head in H1. subst R. now rewrite app_nil_r in H2.
  Qed.
  Lemma row_index b n j : j < n -> (b * n + j) / n = b.
  Proof. intros H. rewrite Nat.div_add_l by lia. rewrite Nat.div_small by lia. lia. Qed.
  Lemma row_bound b B n j : b < size B -> j < n -> b * n + j < size B * n.
  Proof. nia. Qed.

  Lemma ready_rows b1 (s1 : st) b2 s2 : same_rows b1 s1 b2 s2 -> ready s1 -> ready s2.
  Proof.
    intros Ha Hr k t2 Ht2. pose proof (same_rows_sym _ _ _ _ Ha) as Ha'.
    destruct (same_row_dict_get _ _ _ _ _ _ _ _ (sr_acc _ _ _ _ Ha') Ht2) as (t1 & Ht1 & _).
    destruct (proj2 (sr_acc _ _ _ _ Ha) _ _ _ Ht1 Ht2) as [_ Hf]. apply Forall2_nth in Hf as [Hl Hf].
    destruct (Hr k t1 Ht1) as (u1 & Hu1 & Hn1 & Hc1).
    destruct (same_row_dict_get _ _ _ _ _ _ _ _ (sr_upd _ _ _ _ Ha) Hu1) as (u2 & Hu2 & [Hus Huf]).
    apply Forall2_nth in Huf as [Hul Huf]. apply Forall2_nth in Hc1 as [Hcl Hc].
    exists u2. split; [assumption|]. split; [now rewrite <- (is_none_structure _ _ Hus)|].
    destruct (sr_p _ _ _ _ Ha) as (_ & _ & _ & Hpd & _). rewrite <- Hpd.
    apply Forall2_nth. split; [congruence|]. intros i x y Hx Hy.
    destruct (nth_error_same_length _ (leaves t1) _ _ (eq_sym Hl) Hx) as [x1 Hx1].
    destruct (nth_error_same_length _ (leaves u1) _ _ (eq_sym Hul) Hy) as [y1 Hy1].
    destruct (Hf i x1 x Hx1 Hx) as (Rx & Hx2 & Hx3 & Hx4 & _).
    destruct (Huf i y1 y Hy1 Hy) as (Ry & Hy2 & Hy3 & Hy4 & _).
    destruct (Hc i x1 y1 Hx1 Hy1) as [H1 H2].
    assert (Rx = Ry) by (apply (app_inv_head (batch_shape s1)); congruence). subst Ry.
    split; congruence.
  Qed.

  Theorem iterate_rows b1 (s1 : st) b2 s2 h1 h2 :
    wf s1 -> wf s2 -> wf_pending s1 -> wf_pending s2 -> awf h1 -> awf h2 ->
    same_rows b1 s1 b2 s2 -> same_row (batch_shape s1) b1 (batch_shape s2) b2 h1 h2 ->
    match iterate_act s1 h1, iterate_act s2 h2 with
    | Ok s1', Ok s2' => same_rows b1 s1' b2 s2' /\ batch_shape s1' = batch_shape s1 /\
                        batch_shape s2' = batch_shape s2
    | Err e1, Err e2 => e1 = e2
    | _, _ => False
    end.
  Proof.
    intros W1 W2 P1 P2 A1 A2 Hag Hh.
    pose proof (iterate_ok_iff s1 h1 W1 P1 A1) as O1. pose proof (iterate_ok_iff s2 h2 W2 P2 A2) as O2.
    pose proof (same_rows_sym _ _ _ _ Hag) as Hag'.
    pose proof (same_row_shape _ _ _ _ _ _ Hh) as Sh1.
    pose proof (same_row_shape _ _ _ _ _ _ (same_row_sym _ _ _ _ _ _ Hh)) as Sh2.
    assert (Hhd : a_dt h1 = a_dt h2) by (destruct Hh as (_ & _ & _ & X & _); exact X).
    assert (Hpd : a_dt (probabilities s1) = a_dt (probabilities s2))
      by (destruct (sr_p _ _ _ _ Hag) as (_ & _ & _ & X & _); exact X).
    assert (Tr : (a_shape h1 = batch_shape s1 /\ weak_float (a_dt h1) = a_dt (probabilities s1) /\ ready s1) <->
                 (a_shape h2 = batch_shape s2 /\ weak_float (a_dt h2) = a_dt (probabilities s2) /\ ready s2)).
    { split; intros (X & Y & Z); (split; [auto|split; [congruence|]]).
      - eapply ready_rows; eauto.
      - eapply ready_rows; eauto. }
    destruct (iterate_act s1 h1) as [s1'|e1] eqn:E1, (iterate_act s2 h2) as [s2'|e2] eqn:E2.
    - destruct O1 as [O1 _]. destruct O1 as (Hs1 & _ & R1); [eauto|].
      destruct O2 as [O2 _]. destruct O2 as (Hs2 & _ & R2); [eauto|]. clear Tr.
      destruct (iterate_committed s1 h1 s1' W1 P1 A1 E1) as (C1 & W1' & _).
      destruct (iterate_committed s2 h2 s2' W2 P2 A2 E2) as (C2 & W2' & _).
      destruct (elementwise_eq s1 s2 (sr_eps _ _ _ _ Hag) (sr_dep _ _ _ _ Hag)) as (Np & Nr & Ni & Na & _ & _).
      pose proof (committed_frame _ _ _ C1) as B1. pose proof (committed_frame _ _ _ C2) as B2.
      split; [|split; assumption].
      pose proof (same_row_batch _ _ _ _ _ _ (sr_p _ _ _ _ Hag) eq_refl) as Hbp.
      pose proof (same_row_batch _ _ _ _ _ _ (sr_r _ _ _ _ Hag) (wf_r_shape _ W1)) as Hbr.
      pose proof (same_row_batch _ _ _ _ _ _ (sr_i _ _ _ _ Hag) (wf_i_shape _ W1)) as Hbi.
      pose proof (same_row_batch _ _ _ _ _ _ Hh Hs1) as Hbh.
      destruct (nth_error_lt (a_data (probabilities s1)) b1) as [p Hp];
        [rewrite (wf_batch_len s1 W1); apply Hag|].
      destruct (batch_get s1 h1 b1 p W1 A1 Hs1 Hp) as [hv Hhv].
      destruct (batch_get s1 _ b1 p W1 (wf_r _ W1) (wf_r_shape _ W1) Hp) as [r Hr].
      destruct (batch_get s1 _ b1 p W1 (wf_i _ W1) (wf_i_shape _ W1) Hp) as [n Hn].
      pose proof Hbp as Hp2. rewrite Hp in Hp2. symmetry in Hp2.
      pose proof Hbh as Hhv2. rewrite Hhv in Hhv2. symmetry in Hhv2.
      pose proof Hbr as Hr2. rewrite Hr in Hr2. symmetry in Hr2.
      pose proof Hbi as Hn2. rewrite Hn in Hn2. symmetry in Hn2.
      assert (Dt : forall a1 a2 a1' a2' : array N, sig a1' = sig a1 -> sig a2' = sig a2 ->
                a_dt a1 = a_dt a2 -> a_dt a1' = a_dt a2') by (unfold sig; intros; congruence).
      constructor; rewrite ?B1, ?B2.
      + apply Hag.
      + apply Hag.
      + rewrite (cm_eps _ _ _ C1), (cm_eps _ _ _ C2). apply Hag.
      + rewrite (cm_dep _ _ _ C1), (cm_dep _ _ _ C2). apply Hag.
      + apply same_row_batch_intro; [exact B1|exact B2| |].
        * eapply Dt; [apply (cm_p_sig _ _ _ C1)|apply (cm_p_sig _ _ _ C2)|exact Hpd].
        * rewrite (cm_p _ _ _ C1 b1 p hv Hp Hhv), (cm_p _ _ _ C2 b2 p hv Hp2 Hhv2). now rewrite Np.
      + apply same_row_batch_intro; [rewrite (wf_r_shape _ W1'); exact B1|rewrite (wf_r_shape _ W2'); exact B2| |].
        * rewrite (wf_r_dtype _ W1'), (wf_r_dtype _ W2').
          eapply Dt; [apply (cm_p_sig _ _ _ C1)|apply (cm_p_sig _ _ _ C2)|exact Hpd].
        * rewrite (cm_r _ _ _ C1 b1 p r hv Hp Hr Hhv), (cm_r _ _ _ C2 b2 p r hv Hp2 Hr2 Hhv2). now rewrite Nr.
      + apply same_row_batch_intro; [rewrite (wf_i_shape _ W1'); exact B1|rewrite (wf_i_shape _ W2'); exact B2| |].
        * eapply Dt; [apply (cm_i_sig _ _ _ C1)|apply (cm_i_sig _ _ _ C2)|].
          destruct (sr_i _ _ _ _ Hag) as (_ & _ & _ & X & _); exact X.
        * rewrite (cm_i _ _ _ C1 b1 p n Hp Hn), (cm_i _ _ _ C2 b2 p n Hp2 Hn2). now rewrite Ni.
      + split.
        * rewrite (cm_keys_a _ _ _ C1), (cm_keys_a _ _ _ C2). apply (sr_acc _ _ _ _ Hag).
        * intros k t1' t2' Ht1' Ht2'.
          assert (Hin : In k (dkeys (accumulators s1))) by (rewrite <- (cm_keys_a _ _ _ C1); apply dget_keys; eauto).
          apply dget_keys in Hin as [t1 Ht1].
          destruct (same_row_dict_get _ _ _ _ _ _ _ _ (sr_acc _ _ _ _ Hag) Ht1) as (t2 & Ht2 & Agt).
          destruct (cm_acc _ _ _ C1 k t1 Ht1) as (u1 & x1 & Hu1 & Hx1 & Al1 & L1 & F1).
          destruct (cm_acc _ _ _ C2 k t2 Ht2) as (u2 & x2 & Hu2 & Hx2 & Al2 & L2 & F2).
          assert (x1 = t1') by congruence. assert (x2 = t2') by congruence. subst x1 x2.
          pose proof (proj2 (sr_upd _ _ _ _ Hag) _ _ _ Hu1 Hu2) as Agu.
          assert (Hst : structure t1' = structure t2').
          { rewrite (proj1 Al1), (proj1 Al2). apply Agt. }
          split; [exact Hst|]. apply Forall2_nth. split; [now apply structure_eq_length|].
          intros l a1' a2' Ha1' Ha2'.
          destruct (nth_error_same_length _ (leaves t1) _ _ (alike_len _ _ Al1) Ha1') as [a1 Ha1].
          destruct (same_row_tree_nth _ _ _ _ _ _ _ _ Agt Ha1) as (a2 & Ha2 & (R & HR1 & HR2 & HD & Ag)).
          pose proof (alike_nth _ _ _ _ _ Al1 Ha1' Ha1) as Sg1.
          pose proof (alike_nth _ _ _ _ _ Al2 Ha2' Ha2) as Sg2.
          unfold sig in Sg1, Sg2. injection Sg1 as Sg1 Sd1. injection Sg2 as Sg2 Sd2.
          exists R. split; [congruence|]. split; [congruence|]. split; [congruence|].
          intros j Hj. specialize (Ag j Hj).
          destruct (nth_error_same_length _ (leaves u1) l a1 (eq_sym L1) Ha1) as [ul1 Hul1].
          destruct (same_row_tree_nth _ _ _ _ _ _ _ _ Agu Hul1) as (ul2 & Hul2 & (R' & HU1 & _ & _ & Au)).
          destruct (ready_leaf s1 k t1 u1 l a1 ul1 W1 P1 R1 Ht1 Hu1 Ha1 Hul1) as [Us1 Ul1].
          assert (R' = R) by (apply (app_inv_head (batch_shape s1)); congruence). subst R'.
          specialize (Au j Hj).
          destruct (Forall_nth _ _ _ _ (wf_acc _ W1 _ _ Ht1) Ha1) as (Aw1 & _).
          assert (Len : length (a_data a1) = size (batch_shape s1) * size R).
          { unfold awf, twf in Aw1. fold (a_shape a1) in Aw1. fold (a_data a1) in Aw1.
            now rewrite Aw1, HR1, size_app. }
          destruct (nth_error_lt (a_data a1) (b1 * size R + j)) as [av Hav].
          { rewrite Len. apply row_bound; [apply Hag|assumption]. }
          destruct (nth_error_same_length _ (a_data ul1) _ av (eq_sym Ul1) Hav) as [uv Huv].
          rewrite (F1 l a1 ul1 a1' Ha1 Hul1 Ha1' R HR1 _ av uv p hv Hav Huv)
            by (rewrite row_index by assumption; assumption).
          rewrite (F2 l a2 ul2 a2' Ha2 Hul2 Ha2' R HR2 (b2 * size R + j) av uv p hv);
            [now rewrite Na|congruence|congruence|rewrite row_index by assumption; assumption..].
      + rewrite (cm_def _ _ _ C1), (cm_def _ _ _ C2). apply Hag.
      + split.
        * rewrite (cm_keys_u _ _ _ C1), (cm_keys_u _ _ _ C2). apply (sr_upd _ _ _ _ Hag).
        * intros k u1 u2 Hu1 Hu2.
          assert (I1 : In k (dkeys (updates s1))) by (rewrite <- (cm_keys_u _ _ _ C1); apply dget_keys; eauto).
          assert (I2 : In k (dkeys (updates s2))) by (rewrite <- (cm_keys_u _ _ _ C2); apply dget_keys; eauto).
          rewrite (cm_upd _ _ _ C1 k I1) in Hu1. rewrite (cm_upd _ _ _ C2 k I2) in Hu2.
          inversion Hu1; inversion Hu2; subst. split; [reflexivity|constructor].
    - destruct (proj2 O2 (proj1 Tr (proj1 O1 (ex_intro _ s1' eq_refl)))) as [y Hy]. discriminate.
    - destruct (proj2 O1 (proj2 Tr (proj1 O2 (ex_intro _ s2' eq_refl)))) as [y Hy]. discriminate.
    - destruct (iterate_err s1 h1 e1 W1 P1 A1 E1) as [(X & Y)|[(X & Y & Z)|(X & Y & Z & T)]];
      destruct (iterate_err s2 h2 e2 W2 P2 A2 E2) as [(X' & Y')|[(X' & Y' & Z')|(X' & Y' & Z' & T')]];
      try congruence; exfalso; auto.
  Qed.

  Lemma cache_rows b1 (s1 : st) b2 s2 name i1 i2 :
    same_rows b1 s1 b2 s2 -> same_row_tree (batch_shape s1) b1 (batch_shape s2) b2 i1 i2 ->
    match cache_update s1 name i1, cache_update s2 name i2 with
    | Ok s1', Ok s2' => same_rows b1 s1' b2 s2' /\ batch_shape s1' = batch_shape s1 /\
                        batch_shape s2' = batch_shape s2
    | Err e1, Err e2 => e1 = e2
    | _, _ => False
    end.
  Proof.
    intros Hag Hi. rewrite !cache_update_char. pose proof (sr_upd _ _ _ _ Hag) as Hu.
    pose proof Hu as [Hk Hd].
    destruct (dget name (updates s1)) as [u1|] eqn:E1.
    - destruct (same_row_dict_get _ _ _ _ _ _ _ _ Hu E1) as (u2 & E2 & [Hst Hf]). rewrite E2.
      rewrite (is_none_structure _ _ Hst). destruct (is_none u2); [|reflexivity].
      split; [|split; reflexivity].
      destruct Hag. constructor; unfold batch_shape;
        cbn [with_updates epsilon iterations residuals probabilities defaults accumulators updates
             depression_constant error_mode]; try assumption.
      split.
      + rewrite !dkeys_dset_in; [assumption|apply dget_keys; eauto..].
      + intros k t1 t2 H1 H2. rewrite dget_dset in H1, H2.
        destruct (String.eqb k name); [|eauto]. inversion H1; inversion H2; subst. exact Hi.
    - assert (E2 : dget name (updates s2) = None).
      { apply dget_none. rewrite <- Hk. now apply dget_none. }
      rewrite E2. reflexivity.
  Qed.

  Definition resets_alike (s1 s2 : st) : Prop :=
    (batch_shape s1 = [] <-> batch_shape s2 = []) \/ plain s1.

  Lemma idle_rows b1 (s1 : st) b2 s2 : same_rows b1 s1 b2 s2 -> idle s1 -> idle s2.
  Proof.
    intros Hag Hi k u2 Hu2. apply same_rows_sym in Hag.
    destruct (same_row_dict_get _ _ _ _ _ _ _ _ (sr_upd _ _ _ _ Hag) Hu2) as (u1 & Hu1 & [Hst _]).
    rewrite (is_none_structure _ _ Hst). eauto.
  Qed.
  Lemma plain_rows b1 (s1 : st) b2 s2 : same_rows b1 s1 b2 s2 -> plain s1 -> plain s2.
  Proof.
    intros Hag Hr k t2 Ht2. apply same_rows_sym in Hag.
    destruct (same_row_dict_get _ _ _ _ _ _ _ _ (sr_acc _ _ _ _ Hag) Ht2) as (t1 & Ht1 & [Hst _]).
    destruct (Hr k t1 Ht1) as [[a Hx]|Hx].
    - left. subst t1. destruct t2 as [a2|]; [eauto|discriminate].
    - right. apply length_zero_iff_nil. apply structure_eq_length in Hst. rewrite Hst, Hx. reflexivity.
  Qed.
  Lemma resettable_rows b1 (s1 : st) b2 s2 :
    same_rows b1 s1 b2 s2 -> resets_alike s1 s2 -> resettable s1 -> resettable s2.
  Proof.
    intros Hag [HB|Hpl] Hr k t2 Ht2.
    - pose proof (same_rows_sym _ _ _ _ Hag) as Hag'.
      destruct (same_row_dict_get _ _ _ _ _ _ _ _ (sr_acc _ _ _ _ Hag') Ht2) as (t1 & Ht1 & [Hst _]).
      destruct (Hr k t1 Ht1) as [Hx|[[a Hx]|Hx]]; [left; now apply HB| |].
      + right. left. subst t1. destruct t2 as [a2|]; [eauto|discriminate].
      + right. right. apply length_zero_iff_nil. apply structure_eq_length in Hst. rewrite Hst, Hx. reflexivity.
    - right. exact (plain_rows _ _ _ _ Hag Hpl k t2 Ht2).
  Qed.

  Theorem reset_rows b1 (s1 : st) b2 s2 :
    wf s1 -> wf s2 -> same_rows b1 s1 b2 s2 -> resets_alike s1 s2 ->
    match reset_batches s1, reset_batches s2 with
    | Ok s1', Ok s2' => same_rows b1 s1' b2 s2' /\ batch_shape s1' = batch_shape s1 /\
                        batch_shape s2' = batch_shape s2
    | Err e1, Err e2 => e1 = e2
    | _, _ => False
    end.
  Proof.
    intros W1 W2 Hag Hra. pose proof (same_rows_sym _ _ _ _ Hag) as Hag'.
    assert (Hra' : resets_alike s2 s1).
    { destruct Hra as [X|X]; [left; tauto|right]. eapply plain_rows; eauto. }
    pose proof (reset_ok_iff s1 W1) as O1. pose proof (reset_ok_iff s2 W2) as O2.
    assert (Tr : (idle s1 /\ resettable s1) <-> (idle s2 /\ resettable s2)).
    { split; intros [X Y]; (split; [eapply idle_rows; eauto|eapply resettable_rows; eauto]). }
    destruct (reset_batches s1) as [s1'|e1] eqn:E1, (reset_batches s2) as [s2'|e2] eqn:E2.
    - clear Tr O1 O2. destruct (reset_effect s1 s1' W1 E1) as [C1 W1']. destruct (reset_effect s2 s2' W2 E2) as [C2 W2'].
      destruct (elementwise_eq s1 s2 (sr_eps _ _ _ _ Hag) (sr_dep _ _ _ _ Hag)) as (_ & _ & _ & _ & Nk & Nh).
      pose proof (rs_p_sig _ _ C1) as S1. injection S1 as B1 D1. fold (batch_shape s1') (batch_shape s1) in B1.
      pose proof (rs_p_sig _ _ C2) as S2. injection S2 as B2 D2. fold (batch_shape s2') (batch_shape s2) in B2.
      split; [|split; assumption].
      assert (Hpd : a_dt (probabilities s1) = a_dt (probabilities s2))
        by (destruct (sr_p _ _ _ _ Hag) as (_ & _ & _ & X & _); exact X).
      pose proof (same_row_batch _ _ _ _ _ _ (sr_p _ _ _ _ Hag) eq_refl) as Hbp.
      pose proof (same_row_batch _ _ _ _ _ _ (sr_r _ _ _ _ Hag) (wf_r_shape _ W1)) as Hbr.
      pose proof (same_row_batch _ _ _ _ _ _ (sr_i _ _ _ _ Hag) (wf_i_shape _ W1)) as Hbi.
      destruct (nth_error_lt (a_data (probabilities s1)) b1) as [p Hp];
        [rewrite (wf_batch_len s1 W1); apply Hag|].
      destruct (batch_get s1 _ b1 p W1 (wf_r _ W1) (wf_r_shape _ W1) Hp) as [r Hr].
      destruct (batch_get s1 _ b1 p W1 (wf_i _ W1) (wf_i_shape _ W1) Hp) as [n Hn].
      pose proof Hbp as Hp2. rewrite Hp in Hp2. symmetry in Hp2.
      pose proof Hbr as Hr2. rewrite Hr in Hr2. symmetry in Hr2.
      pose proof Hbi as Hn2. rewrite Hn in Hn2. symmetry in Hn2.
      constructor; rewrite ?B1, ?B2.
      + apply Hag.
      + apply Hag.
      + rewrite (rs_eps _ _ C1), (rs_eps _ _ C2). apply Hag.
      + rewrite (rs_dep _ _ C1), (rs_dep _ _ C2). apply Hag.
      + apply same_row_batch_intro; [exact B1|exact B2|congruence|].
        rewrite (rs_p _ _ C1 b1 p Hp), (rs_p _ _ C2 b2 p Hp2). now rewrite Nk.
      + apply same_row_batch_intro; [rewrite (wf_r_shape _ W1'); exact B1|rewrite (wf_r_shape _ W2'); exact B2| |].
        * rewrite (wf_r_dtype _ W1'), (wf_r_dtype _ W2'). congruence.
        * rewrite (rs_r _ _ C1 b1 p r Hp Hr), (rs_r _ _ C2 b2 p r Hp2 Hr2). now rewrite Nk.
      + apply same_row_batch_intro; [rewrite (wf_i_shape _ W1'); exact B1|rewrite (wf_i_shape _ W2'); exact B2| |].
        * pose proof (rs_i_sig _ _ C1) as Y1. pose proof (rs_i_sig _ _ C2) as Y2. unfold sig in Y1, Y2.
          destruct (sr_i _ _ _ _ Hag) as (_ & _ & _ & X & _). congruence.
        * rewrite (rs_i _ _ C1 b1 p n Hp Hn), (rs_i _ _ C2 b2 p n Hp2 Hn2). now rewrite Nk.
      + split.
        * rewrite (rs_keys _ _ C1), (rs_keys _ _ C2). apply (sr_acc _ _ _ _ Hag).
        * intros k t1' t2' Ht1' Ht2'.
          assert (Hin : In k (dkeys (accumulators s1))) by (rewrite <- (rs_keys _ _ C1); apply dget_keys; eauto).
          apply dget_keys in Hin as [t1 Ht1].
          destruct (same_row_dict_get _ _ _ _ _ _ _ _ (sr_acc _ _ _ _ Hag) Ht1) as (t2 & Ht2 & Agt).
          destruct (default_of s1 k t1 W1 Ht1) as (d1 & Hd1 & Ald1 & Awd1).
          destruct (default_of s2 k t2 W2 Ht2) as (d2 & Hd2 & Ald2 & Awd2).
          destruct (rs_acc _ _ C1 k t1 d1 Ht1 Hd1) as (x1 & Hx1 & Al1 & F1).
          destruct (rs_acc _ _ C2 k t2 d2 Ht2 Hd2) as (x2 & Hx2 & Al2 & F2).
          assert (x1 = t1') by congruence. assert (x2 = t2') by congruence. subst x1 x2.
          pose proof (proj2 (sr_def _ _ _ _ Hag) _ _ _ Hd1 Hd2) as Agd.
          assert (Hst : structure t1' = structure t2').
          { rewrite (proj1 Al1), (proj1 Al2). apply Agt. }
          split; [exact Hst|]. apply Forall2_nth. split; [now apply structure_eq_length|].
          intros l a1' a2' Ha1' Ha2'.
          destruct (nth_error_same_length _ (leaves t1) _ _ (alike_len _ _ Al1) Ha1') as [a1 Ha1].
          destruct (same_row_tree_nth _ _ _ _ _ _ _ _ Agt Ha1) as (a2 & Ha2 & (R & HR1 & HR2 & HD & Ag)).
          pose proof (alike_nth _ _ _ _ _ Al1 Ha1' Ha1) as Sg1.
          pose proof (alike_nth _ _ _ _ _ Al2 Ha2' Ha2) as Sg2.
          unfold sig in Sg1, Sg2. injection Sg1 as Sg1 Sd1. injection Sg2 as Sg2 Sd2.
          exists R. split; [congruence|]. split; [congruence|]. split; [congruence|].
          intros j Hj. specialize (Ag j Hj).
          destruct (nth_error_same_length _ (leaves d1) l a1 (alike_len _ _ Ald1) Ha1) as [dl1 Hdl1].
          destruct (same_row_tree_nth _ _ _ _ _ _ _ _ Agd Hdl1) as (dl2 & Hdl2 & (R' & HU1 & _ & _ & Au)).
          pose proof (alike_nth _ _ _ _ _ Ald1 Ha1 Hdl1) as Sx. unfold sig in Sx. injection Sx as Sx _.
          assert (R' = R) by (apply (app_inv_head (batch_shape s1)); congruence). subst R'.
          specialize (Au j Hj).
          destruct (Forall_nth _ _ _ _ (wf_acc _ W1 _ _ Ht1) Ha1) as (Aw1 & _).
          pose proof (Forall_nth _ _ _ _ Awd1 Hdl1) as Hawd.
          assert (Len : length (a_data a1) = size (batch_shape s1) * size R).
          { unfold awf, twf in Aw1. fold (a_shape a1) in Aw1. fold (a_data a1) in Aw1.
            now rewrite Aw1, HR1, size_app. }
          assert (Ul1 : length (a_data a1) = length (a_data dl1)).
          { unfold awf, twf in Aw1, Hawd. unfold a_data. rewrite Aw1, Hawd. unfold a_shape in Sx. now rewrite Sx. }
          destruct (nth_error_lt (a_data a1) (b1 * size R + j)) as [av Hav].
          { rewrite Len. apply row_bound; [apply Hag|assumption]. }
          destruct (nth_error_same_length _ (a_data dl1) _ av Ul1 Hav) as [dv Hdv].
          rewrite (F1 l a1 dl1 a1' Ha1 Hdl1 Ha1' R HR1 _ av dv p Hav Hdv)
            by (rewrite row_index by assumption; assumption).
          rewrite (F2 l a2 dl2 a2' Ha2 Hdl2 Ha2' R HR2 (b2 * size R + j) av dv p);
            [now rewrite Nh|congruence|congruence|rewrite row_index by assumption; assumption].
      + rewrite (rs_def _ _ C1), (rs_def _ _ C2). apply Hag.
      + rewrite (rs_upd _ _ C1), (rs_upd _ _ C2). apply Hag.
    - destruct (proj2 O2 (proj1 Tr (proj1 O1 (ex_intro _ s1' eq_refl)))) as [y Hy]. discriminate.
    - destruct (proj2 O1 (proj2 Tr (proj1 O2 (ex_intro _ s2' eq_refl)))) as [y Hy]. discriminate.
    - destruct (reset_err s1 e1 W1 E1) as [(X & Y)|(X & Y & Z)];
      destruct (reset_err s2 e2 W2 E2) as [(X' & Y')|(X' & Y' & Z')]; try congruence.
      + exfalso. apply X. eapply idle_rows; eauto.
      + exfalso. apply X'. eapply idle_rows; eauto.
  Qed.

  Lemma plain_after (s : st) c : wf s -> wf_pending s -> call_wf c -> plain s -> plain (after s c).
  Proof.
    intros W P K Hp k t' Ht'.
    pose proof (run_frame s [c] W P (Forall_cons _ K (Forall_nil _))) as Fr. cbn [run fold_left] in Fr.
    assert (Hin : In k (dkeys (accumulators s))).
    { rewrite <- (sf_accs _ _ Fr). apply dget_keys. eauto. }
    apply dget_keys in Hin as [t Ht]. destruct (sf_acc _ _ Fr k t t' Ht Ht') as [A _].
    destruct (Hp k t Ht) as [[a ->]|E].
    - left. destruct t' as [a'|]; [eauto|discriminate].
    - right. apply length_zero_iff_nil. apply structure_eq_length in A. rewrite A, E. reflexivity.
  Qed.

  (** The outcome of one call. *)
  Theorem call_rows b1 (s1 : st) b2 s2 c1 c2 :
    wf s1 -> wf s2 -> wf_pending s1 -> wf_pending s2 -> call_wf c1 -> call_wf c2 ->
    same_rows b1 s1 b2 s2 -> same_row_call (batch_shape s1) b1 (batch_shape s2) b2 c1 c2 ->
    (c1 = CReset -> resets_alike s1 s2) ->
    match apply_call s1 c1, apply_call s2 c2 with
    | Ok s1', Ok s2' => same_rows b1 s1' b2 s2' /\ batch_shape s1' = batch_shape s1 /\
                        batch_shape s2' = batch_shape s2
    | Err e1, Err e2 => e1 = e2
    | _, _ => False
    end.
  Proof.
    intros W1 W2 P1 P2 K1 K2 Hag Hc Hr.
    destruct c1 as [n1 i1|h1|], c2 as [n2 i2|h2|]; try contradiction; cbn [apply_call same_row_call call_wf] in *.
    - destruct Hc as [Hn Hi]. subst n2. now apply cache_rows.
    - now apply iterate_rows.
    - apply reset_rows; auto.
  Qed.

  Theorem run_rows b1 (s1 : st) b2 s2 cs1 cs2 :
    wf s1 -> wf s2 -> wf_pending s1 -> wf_pending s2 ->
    Forall call_wf cs1 -> Forall call_wf cs2 ->
    same_rows b1 s1 b2 s2 ->
    Forall2 (same_row_call (batch_shape s1) b1 (batch_shape s2) b2) cs1 cs2 ->
    (In CReset cs1 -> resets_alike s1 s2) ->
    same_rows b1 (run s1 cs1) b2 (run s2 cs2) /\
    outcomes s1 cs1 = outcomes s2 cs2.
  Proof.
    intros W1 W2 P1 P2 C1 C2 Hag Hcs Hr. revert s1 s2 W1 W2 P1 P2 Hag C1 C2 Hcs Hr.
    revert cs2. induction cs1 as [|c1 cs1 IH]; intros cs2 s1 s2 W1 W2 P1 P2 Hag C1 C2 Hcs Hr;
      inversion Hcs as [|? c2 ? cs2' Hc Hcs']; subst; [split; [exact Hag|reflexivity]|].
    inversion C1 as [|? ? K1 K1']; inversion C2 as [|? ? K2 K2']; subst.
    rewrite !run_cons.
    destruct (after_wf s1 c1 W1 P1 K1) as [A1 A2]. destruct (after_wf s2 c2 W2 P2 K2) as [A3 A4].
    assert (Hr0 : c1 = CReset -> resets_alike s1 s2) by (intros ->; apply Hr; now left).
    pose proof (call_rows b1 s1 b2 s2 c1 c2 W1 W2 P1 P2 K1 K2 Hag Hc Hr0) as H.
    pose proof (plain_after s1 c1 W1 P1 K1) as Pl.
    cbn [outcomes]. unfold after in *.
    destruct (apply_call s1 c1) as [s1'|e1], (apply_call s2 c2) as [s2'|e2]; try contradiction.
    - destruct H as (H & E1 & E2).
      destruct (IH cs2' s1' s2') as [X Y]; auto.
      + now rewrite E1, E2.
      + intros Hin. destruct (Hr (or_intror Hin)) as [Q|Q]; [left; now rewrite E1, E2|right; auto].
      + split; [exact X|]. now rewrite Y.
    - subst e2. destruct (IH cs2' s1 s2) as [X Y]; auto.
      + intros Hin. apply Hr. now right.
      + split; [exact X|]. now rewrite Y.
  Qed.

  (** ** Cutting an element out *)
  Lemma row_shape B b (a : array N) R : a_shape a = B ++ R -> a_shape (row B b a) = R.
  Proof.
    intros H. unfold row, a_shape at 1. cbn [a_ten shape].
    rewrite H, skipn_app, skipn_all, Nat.sub_diag. reflexivity.
  Qed.
  Lemma row_data B b (a : array N) R : a_shape a = B ++ R ->
    a_data (row B b a) = firstn (size R) (skipn (b * size R) (a_data a)).
  Proof.
    intros H. unfold row, a_data at 1. cbn [a_ten data].
    now rewrite H, skipn_app, skipn_all, Nat.sub_diag.
  Qed.
  Lemma nth_error_firstn_lt {A} (l : list A) n j : j < n -> nth_error (firstn n l) j = nth_error l j.
  Proof. revert n j. induction l as [|y l IH]; intros [|n] [|j] H; cbn; try lia; auto. apply IH. lia. Qed.
  Lemma nth_error_skipn_add {A} (d : list A) k j : nth_error (skipn k d) j = nth_error d (k + j).
  Proof.
    revert d. induction k as [|k IH]; intros d; [reflexivity|].
    destruct d as [|y d]; [now destruct j|]. cbn [skipn Nat.add nth_error]. apply IH.
  Qed.
  Lemma nth_error_row {A} (d : list A) k n j : j < n ->
    nth_error (firstn n (skipn k d)) j = nth_error d (k + j).
  Proof. intros H. rewrite nth_error_firstn_lt by assumption. apply nth_error_skipn_add. Qed.
  Lemma row_same B b (a : array N) : fits B a -> same_row B b [] 0 a (row B b a).
  Proof.
    intros [_ [R H]]. exists R. split; [exact H|]. split; [now apply row_shape|]. split; [reflexivity|].
    intros j Hj. rewrite (row_data B b a R H), Nat.mul_0_l, Nat.add_0_l. symmetry. now apply nth_error_row.
  Qed.
  Lemma row_awf B b (a : array N) : fits B a -> b < size B -> awf (row B b a).
  Proof.
    intros [Hw [R H]] Hb. unfold awf, twf. fold (a_shape (row B b a)) (a_data (row B b a)).
    rewrite (row_data B b a R H), (row_shape B b a R H), firstn_length, skipn_length.
    unfold awf, twf in Hw. fold (a_shape a) (a_data a) in Hw. rewrite Hw, H, size_app. nia.
  Qed.
  Lemma row_tree_same B b (t : tr) : Forall (fits B) (leaves t) -> same_row_tree B b [] 0 t (row_tree B b t).
  Proof.
    intros H. unfold row_tree. split; [symmetry; apply structure_tmap|]. rewrite leaves_tmap.
    induction H; cbn [map]; constructor; auto using row_same.
  Qed.
  Lemma dkeys_row B b (d : dict tr) : dkeys (row_dict B b d) = dkeys d.
  Proof. unfold row_dict, dkeys. rewrite map_map. reflexivity. Qed.
  Lemma dget_row B b (d : dict tr) k :
    dget k (row_dict B b d) = match dget k d with Some t => Some (row_tree B b t) | None => None end.
  Proof.
    induction d as [|[k' t] d IH]; [reflexivity|]. cbn [row_dict map fst snd dget].
    destruct (String.eqb k k'); [reflexivity|exact IH].
  Qed.
  Lemma row_dict_same B b (d : dict tr) :
    (forall k t, dget k d = Some t -> Forall (fits B) (leaves t)) -> same_row_dict B b [] 0 d (row_dict B b d).
  Proof.
    intros H. split; [symmetry; apply dkeys_row|]. intros k t1 t2 H1 H2. rewrite dget_row, H1 in H2.
    inversion H2; subst. apply row_tree_same. eauto.
  Qed.
  Lemma batch_fits (s : st) (a : array N) : awf a -> a_shape a = batch_shape s -> fits (batch_shape s) a.
  Proof. intros H1 H2. split; [exact H1|]. exists []. now rewrite app_nil_r. Qed.
  Lemma def_fits (s : st) k d : wf s -> dget k (defaults s) = Some d -> Forall (fits (batch_shape s)) (leaves d).
  Proof.
    intros W Hd. assert (Hin : In k (dkeys (accumulators s))) by (apply (wf_keys_d _ W), dget_keys; eauto).
    apply dget_keys in Hin as [t Ht]. destruct (wf_def _ W k t d Ht Hd) as [Al Aw].
    apply Forall_forall. intros a Ha. split; [eapply Forall_forall in Aw; eauto|].
    apply In_nth_error in Ha as [i Hi].
    destruct (nth_error_same_length _ (leaves t) i a (eq_sym (alike_len _ _ Al)) Hi) as [x Hx].
    pose proof (alike_nth _ _ _ _ _ Al Hx Hi) as S. unfold sig in S. injection S as S _.
    destruct (Forall_nth _ _ _ _ (wf_acc _ W _ _ Ht) Hx) as (_ & _ & R & HR). exists R. congruence.
  Qed.
  Lemma alone_shape b (s : st) : batch_shape (alone b s) = [].
  Proof. unfold batch_shape, alone. cbn [probabilities]. apply row_shape. now rewrite app_nil_r. Qed.
  Theorem alone_same b (s : st) : wf s -> pending_fits s -> b < size (batch_shape s) ->
    same_rows b s 0 (alone b s).
  Proof.
    intros W P Hb. constructor; rewrite ?alone_shape; auto; cbn [alone epsilon depression_constant probabilities
      residuals iterations accumulators defaults updates].
    - apply row_same, batch_fits; [apply W|reflexivity].
    - apply row_same, batch_fits; [apply W|apply W].
    - apply row_same, batch_fits; [apply W|apply W].
    - apply row_dict_same. intros k t Ht. eapply Forall_impl; [|exact (wf_acc _ W k t Ht)].
      intros a (H1 & _ & H2). split; auto.
    - apply row_dict_same. intros k t Ht. eapply def_fits; eauto.
    - apply row_dict_same. exact P.
  Qed.
  Lemma row_alike B b (t d : tr) : alike t d -> alike (row_tree B b t) (row_tree B b d).
  Proof.
    intros [H1 H2]. unfold row_tree. split; [now rewrite !structure_tmap|]. rewrite !leaves_tmap, !map_map.
    revert H2. generalize (leaves d). induction (leaves t) as [|x l IH]; intros [|y l'] H2; try discriminate; [reflexivity|].
    cbn [map] in *. injection H2 as E1 E2 E3. f_equal; [|now apply IH].
    unfold sig, row. cbn [a_dt]. unfold a_shape at 1 3. cbn [a_ten shape]. now rewrite E1, E2.
  Qed.
  Theorem alone_wf b (s : st) : wf s -> b < size (batch_shape s) -> wf (alone b s).
  Proof.
    intros W Hb. pose proof (alone_shape b s) as Hs.
    constructor; rewrite ?Hs; cbn [alone epsilon depression_constant probabilities residuals iterations
      accumulators defaults updates]; rewrite ?dkeys_row; try apply W.
    - apply row_awf; [|assumption]. apply batch_fits; [apply W|reflexivity].
    - apply row_awf; [|assumption]. apply batch_fits; apply W.
    - apply row_awf; [|assumption]. apply batch_fits; apply W.
    - apply row_shape. rewrite app_nil_r. apply W.
    - apply row_shape. rewrite app_nil_r. apply W.
    - intros k t Ht. rewrite dget_row in Ht. destruct (dget k (accumulators s)) as [t0|] eqn:E; [|discriminate].
      inversion Ht; subst. unfold row_tree. rewrite leaves_tmap. apply Forall_map.
      eapply Forall_impl; [|exact (wf_acc _ W k t0 E)]. intros a (H1 & H2 & R & H3).
      split; [apply row_awf; [split; eauto|assumption]|]. split; [exact H2|].
      exists R. cbn [app]. now apply row_shape.
    - intros k t d Ht Hd. rewrite dget_row in Ht, Hd.
      destruct (dget k (accumulators s)) as [t0|] eqn:E; [|discriminate].
      destruct (dget k (defaults s)) as [d0|] eqn:F; [|discriminate].
      inversion Ht; inversion Hd; subst. destruct (wf_def _ W k t0 d0 E F) as [Al _].
      split; [now apply row_alike|]. unfold row_tree. rewrite leaves_tmap. apply Forall_map.
      eapply Forall_impl; [|exact (def_fits s k d0 W F)]. intros a Ha. now apply row_awf.
  Qed.
  Lemma alone_pending b (s : st) : pending_fits s -> b < size (batch_shape s) -> wf_pending (alone b s).
  Proof.
    intros P Hb k u Hu. cbn [alone updates] in Hu. rewrite dget_row in Hu.
    destruct (dget k (updates s)) as [u0|] eqn:E; [|discriminate]. inversion Hu; subst.
    unfold row_tree. rewrite leaves_tmap. apply Forall_map. eapply Forall_impl; [|exact (P k u0 E)].
    intros a Ha. now apply row_awf.
  Qed.
  Lemma alone_call_same B b (c : call N) : call_fits B c -> same_row_call B b [] 0 c (alone_call B b c).
  Proof.
    destruct c as [n i|h|]; cbn; auto; intros H; [split; [reflexivity|now apply row_tree_same]|now apply row_same].
  Qed.
  Lemma alone_call_wf B b (c : call N) : call_fits B c -> b < size B -> call_wf (alone_call B b c).
  Proof.
    destruct c as [n i|h|]; cbn; auto; intros H Hb; [|now apply row_awf].
    unfold row_tree. rewrite leaves_tmap. apply Forall_map. eapply Forall_impl; [|exact H].
    intros a Ha. now apply row_awf.
  Qed.
  Lemma call_fits_wf B (c : call N) : call_fits B c -> call_wf c.
  Proof. destruct c; cbn; auto; [|now intros []]. intros H. eapply Forall_impl; [|exact H]. now intros a []. Qed.

  Theorem run_alone b (s : st) cs :
    wf s -> pending_fits s -> b < size (batch_shape s) -> Forall (call_fits (batch_shape s)) cs ->
    (In CReset cs -> plain s) ->
    same_rows b (run s cs) 0 (run (alone b s) (map (alone_call (batch_shape s) b) cs)) /\
    outcomes s cs = outcomes (alone b s) (map (alone_call (batch_shape s) b) cs).
  Proof.
    intros W P Hb F Hr. apply run_rows; auto using alone_wf, alone_pending, alone_same.
    - intros k u Hu. eapply Forall_impl; [|exact (P k u Hu)]. now intros a [].
    - eapply Forall_impl; [|exact F]. exact (call_fits_wf _).
    - apply Forall_map. eapply Forall_impl; [|exact F]. intros c Hc. now apply alone_call_wf.
    - rewrite alone_shape. clear Hr. induction F; cbn [map]; constructor; auto using alone_call_same.
    - intros Hin. right. auto.
  Qed.
End Slice.
