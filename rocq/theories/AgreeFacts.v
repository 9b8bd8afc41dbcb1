(** * Batch elements do not influence each other (every arithmetic). *)
From Verif Require Import Base PyTree Tensor Num Utils States Controller Wf Spec History ElementSpec.
From Verif Require Import BaseFacts PyTreeFacts TensorFacts ControllerFacts IterateFacts ResetFacts
  HistoryFacts.

Section Agree.
  Context {N : numsys}.
  Notation st := (state N).
  Notation tr := (tree (array N)).

  Lemma agree_arr_sym b B (a1 a2 : array N) : agree_arr b B a1 a2 -> agree_arr b B a2 a1.
  Proof.
    intros [Hs H]. split; [congruence|]. intros R HR j Hj. symmetry. apply (H R); [|assumption].
    injection Hs as Hs _. congruence.
  Qed.
  Lemma agree_tree_sym b B (t1 t2 : tr) : agree_tree b B t1 t2 -> agree_tree b B t2 t1.
  Proof.
    intros [Hs H]. split; [congruence|]. apply Forall2_nth in H as [Hl H]. apply Forall2_nth.
    split; [congruence|]. intros i x y Hx Hy. apply agree_arr_sym. eauto.
  Qed.
  Lemma agree_dict_sym b B (d1 d2 : dict tr) : agree_dict b B d1 d2 -> agree_dict b B d2 d1.
  Proof.
    intros [Hk H]. split; [congruence|]. intros k t1 t2 H1 H2. apply agree_tree_sym. eauto.
  Qed.
  Lemma agree_shape b (s1 s2 : st) : agree b s1 s2 -> batch_shape s2 = batch_shape s1.
  Proof. intros H. destruct (ag_p _ _ _ H) as [Hs _]. injection Hs as Hs _. unfold batch_shape. congruence. Qed.
  Lemma agree_sym b (s1 s2 : st) : agree b s1 s2 -> agree b s2 s1.
  Proof.
    intros H. pose proof (agree_shape _ _ _ H) as E. destruct H.
    constructor; try congruence; rewrite E;
      first [now apply agree_arr_sym|now apply agree_dict_sym].
  Qed.
  Lemma agree_dict_get b B (d1 d2 : dict tr) k t1 :
    agree_dict b B d1 d2 -> dget k d1 = Some t1 ->
    exists t2, dget k d2 = Some t2 /\ agree_tree b B t1 t2.
  Proof.
    intros [Hk H] H1. assert (Hin : In k (dkeys d2)) by (rewrite <- Hk; apply dget_keys; eauto).
    apply dget_keys in Hin as [t2 H2]. eauto.
  Qed.
  Lemma agree_tree_nth b B (t1 t2 : tr) i a1 :
    agree_tree b B t1 t2 -> nth_error (leaves t1) i = Some a1 ->
    exists a2, nth_error (leaves t2) i = Some a2 /\ agree_arr b B a1 a2.
  Proof.
    intros [_ H] H1. apply Forall2_nth in H as [Hl H].
    destruct (nth_error_same_length _ _ _ _ Hl H1) as [a2 H2]. eauto.
  Qed.

  (** An element of two agreeing batch-shaped arrays. *)
  Lemma agree_batch b B (a1 a2 : array N) :
    agree_arr b B a1 a2 -> a_shape a1 = B -> nth_error (a_data a1) b = nth_error (a_data a2) b.
  Proof.
    intros [_ H] Hs. apply (H []); [now rewrite app_nil_r|]. rewrite size_nil. apply Nat.div_1_r.
  Qed.
  Lemma agree_batch_intro b B (a1 a2 : array N) :
    sig a1 = sig a2 -> a_shape a1 = B -> nth_error (a_data a1) b = nth_error (a_data a2) b ->
    agree_arr b B a1 a2.
  Proof.
    intros Hs Hb Hn. split; [assumption|]. intros R HR j Hj.
    assert (R = []).
    { rewrite Hb in HR. rewrite <- (app_nil_r B) in HR at 1. apply app_inv_head in HR. congruence. }
    subst R. rewrite size_nil, Nat.div_1_r in Hj. congruence.
  Qed.

  Lemma ready_transfer b (s1 s2 : st) : agree b s1 s2 -> ready s1 -> ready s2.
  Proof.
    intros Ha Hr k t2 Ht2. pose proof (agree_sym _ _ _ Ha) as Ha'.
    destruct (agree_dict_get _ _ _ _ _ _ (ag_acc _ _ _ Ha') Ht2) as (t1 & Ht1 & _).
    destruct (proj2 (ag_acc _ _ _ Ha) _ _ _ Ht1 Ht2) as [_ Hf]. apply Forall2_nth in Hf as [Hl Hf].
    destruct (Hr k t1 Ht1) as (u1 & Hu1 & Hn1 & Hc1).
    destruct (agree_dict_get _ _ _ _ _ _ (ag_upd _ _ _ Ha) Hu1) as (u2 & Hu2 & [Hus Huf]).
    apply Forall2_nth in Huf as [Hul Huf]. apply Forall2_nth in Hc1 as [Hcl Hc].
    exists u2. split; [assumption|]. split; [now rewrite <- (is_none_structure _ _ Hus)|].
    destruct (ag_p _ _ _ Ha) as [Hps _]. injection Hps as _ Hpd. rewrite <- Hpd.
    apply Forall2_nth. split; [congruence|]. intros i x y Hx Hy.
    destruct (nth_error_same_length _ (leaves t1) _ _ (eq_sym Hl) Hx) as [x1 Hx1].
    destruct (nth_error_same_length _ (leaves u1) _ _ (eq_sym Hul) Hy) as [y1 Hy1].
    destruct (Hf i x1 x Hx1 Hx) as [Hsx _]. destruct (Huf i y1 y Hy1 Hy) as [Hsy _].
    destruct (Hc i x1 y1 Hx1 Hy1) as [H1 H2]. injection Hsx as Hx2 Hx3. injection Hsy as Hy2 Hy3.
    split; congruence.
  Qed.

  Lemma committed_frame (s : st) h s' : committed s h s' -> batch_shape s' = batch_shape s.
  Proof. intros H. pose proof (cm_p_sig _ _ _ H) as E. injection E as E _. exact E. Qed.

  Lemma batch_get (s : st) (a : array N) i x :
    wf s -> awf a -> a_shape a = batch_shape s ->
    nth_error (a_data (probabilities s)) i = Some x -> exists y, nth_error (a_data a) i = Some y.
  Proof.
    intros Hw Ha Hs Hx. apply nth_error_lt. apply nth_error_some_lt in Hx.
    rewrite (wf_batch_len s Hw) in Hx. unfold awf, twf in Ha. unfold a_data. rewrite Ha.
    unfold a_shape in Hs. now rewrite Hs.
  Qed.
  Lemma batch_none (s : st) (a : array N) i :
    wf s -> awf a -> a_shape a = batch_shape s ->
    nth_error (a_data (probabilities s)) i = None -> nth_error (a_data a) i = None.
  Proof.
    intros Hw Ha Hs Hx. apply nth_error_None. apply nth_error_None in Hx.
    rewrite (wf_batch_len s Hw) in Hx. unfold awf, twf in Ha. unfold a_data. rewrite Ha.
    unfold a_shape in Hs. now rewrite Hs.
  Qed.

  (** lengths of pending leaves, given readiness *)
  Lemma ready_leaf (s : st) k t u l a ul :
    wf s -> wf_pending s -> ready s -> dget k (accumulators s) = Some t -> dget k (updates s) = Some u ->
    nth_error (leaves t) l = Some a -> nth_error (leaves u) l = Some ul ->
    a_shape ul = a_shape a /\ length (a_data ul) = length (a_data a).
  Proof.
    intros Hw Hp Hr Ht Hu Ha Hul. destruct (Hr k t Ht) as (u1 & Hu1 & _ & Hf).
    rewrite Hu in Hu1. inversion Hu1; subst u1. apply Forall2_nth in Hf as [_ Hf].
    destruct (Hf l a ul Ha Hul) as [Hs _]. split; [congruence|].
    pose proof (Forall_nth _ _ _ _ (Hp _ _ Hu) Hul) as H1.
    destruct (Forall_nth _ _ _ _ (wf_acc _ Hw _ _ Ht) Ha) as (H2 & _).
    unfold awf, twf in H1, H2. unfold a_data. rewrite H1, H2. unfold a_shape in Hs. now rewrite Hs.
  Qed.

  Lemma elementwise_eq (s1 s2 : st) :
    epsilon s1 = epsilon s2 -> depression_constant s1 = depression_constant s2 ->
    (forall p h, next_p s1 p h = next_p s2 p h) /\
    (forall p r h, next_r s1 p r h = next_r s2 p r h) /\
    (forall p n, next_i s1 p n = next_i s2 p n) /\
    (forall p h a u, next_a s1 p h a u = next_a s2 p h a u) /\
    (forall p v, kept s1 p v = kept s2 p v) /\ (forall p, halted_at s1 p = halted_at s2 p).
  Proof.
    intros E D. unfold next_p, next_r, next_i, next_a, kept, weight, halts_now, halted_at, scaled, threshold.
    rewrite E, D. repeat split; reflexivity.
  Qed.

  Theorem iterate_agree b (s1 s2 : st) h1 h2 :
    wf s1 -> wf s2 -> wf_pending s1 -> wf_pending s2 -> awf h1 -> awf h2 ->
    agree b s1 s2 -> agree_arr b (batch_shape s1) h1 h2 ->
    match iterate_act s1 h1, iterate_act s2 h2 with
    | Ok s1', Ok s2' => agree b s1' s2'
    | Err e1, Err e2 => e1 = e2
    | _, _ => False
    end.
  Proof.
    intros W1 W2 P1 P2 A1 A2 Hag Hh.
    pose proof (iterate_ok_iff s1 h1 W1 P1 A1) as O1. pose proof (iterate_ok_iff s2 h2 W2 P2 A2) as O2.
    pose proof (agree_shape _ _ _ Hag) as EB. pose proof (agree_sym _ _ _ Hag) as Hag'.
    destruct Hh as [Hhs Hh]. injection Hhs as Hhs Hhd.
    destruct (ag_p _ _ _ Hag) as [Hps _]. injection Hps as _ Hpd.
    assert (Tr : (a_shape h1 = batch_shape s1 /\ weak_float (a_dt h1) = a_dt (probabilities s1) /\ ready s1) <->
                 (a_shape h2 = batch_shape s2 /\ weak_float (a_dt h2) = a_dt (probabilities s2) /\ ready s2)).
    { split; intros (X & Y & Z); (split; [congruence|split; [congruence|]]).
      - eapply ready_transfer; eauto.
      - eapply ready_transfer; eauto. }
    destruct (iterate_act s1 h1) as [s1'|e1] eqn:E1, (iterate_act s2 h2) as [s2'|e2] eqn:E2.
    - destruct O1 as [O1 _]. destruct O1 as (Hs1 & _ & R1); [eauto|].
      destruct O2 as [O2 _]. destruct O2 as (Hs2 & _ & R2); [eauto|]. clear Tr.
      destruct (iterate_committed s1 h1 s1' W1 P1 A1 E1) as (C1 & W1' & _).
      destruct (iterate_committed s2 h2 s2' W2 P2 A2 E2) as (C2 & W2' & _).
      destruct (elementwise_eq s1 s2 (ag_eps _ _ _ Hag) (ag_dep _ _ _ Hag)) as (Np & Nr & Ni & Na & _ & _).
      pose proof (committed_frame _ _ _ C1) as B1. pose proof (committed_frame _ _ _ C2) as B2.
      assert (Hbp : nth_error (a_data (probabilities s1)) b = nth_error (a_data (probabilities s2)) b)
        by (apply (agree_batch b (batch_shape s1)); [apply Hag|reflexivity]).
      assert (Hbr : nth_error (a_data (residuals s1)) b = nth_error (a_data (residuals s2)) b)
        by (apply (agree_batch b (batch_shape s1)); [apply Hag|exact (wf_r_shape _ W1)]).
      assert (Hbi : nth_error (a_data (iterations s1)) b = nth_error (a_data (iterations s2)) b)
        by (apply (agree_batch b (batch_shape s1)); [apply Hag|exact (wf_i_shape _ W1)]).
      assert (Hbh : nth_error (a_data h1) b = nth_error (a_data h2) b).
      { apply (Hh []); [now rewrite app_nil_r|]. rewrite size_nil. apply Nat.div_1_r. }
      assert (Hrange : forall (s : st) (a : array N) i, wf s -> awf a -> a_shape a = batch_shape s ->
                (nth_error (a_data (probabilities s)) i = None <-> nth_error (a_data a) i = None)).
      { intros s a i Hw Ha Hs. split; intros Hx.
        - eapply batch_none; eauto.
        - destruct (nth_error (a_data (probabilities s)) i) as [x|] eqn:Ex; [|reflexivity].
          destruct (batch_get s a i x Hw Ha Hs Ex) as [y Hy]. congruence. }
      constructor; rewrite ?B1.
      + rewrite (cm_eps _ _ _ C1), (cm_eps _ _ _ C2). apply Hag.
      + rewrite (cm_dep _ _ _ C1), (cm_dep _ _ _ C2). apply Hag.
      + rewrite (cm_mode _ _ _ C1), (cm_mode _ _ _ C2). apply Hag.
      + apply agree_batch_intro; [|exact B1|].
        * rewrite (cm_p_sig _ _ _ C1), (cm_p_sig _ _ _ C2). apply (ag_p _ _ _ Hag).
        * destruct (nth_error (a_data (probabilities s1)) b) as [p|] eqn:Ep.
          -- destruct (batch_get s1 h1 b p W1 A1 Hs1 Ep) as [hv Hhv].
             rewrite (cm_p _ _ _ C1 b p hv Ep Hhv).
             rewrite (cm_p _ _ _ C2 b p hv); [now rewrite Np|congruence|congruence].
          -- assert (X1 : nth_error (a_data (probabilities s1')) b = None).
             { apply (batch_none s1); auto. exact (wf_p _ W1'). }
             assert (X2 : nth_error (a_data (probabilities s2')) b = None).
             { apply (batch_none s2); auto. exact (wf_p _ W2'). }
             congruence.
      + apply agree_batch_intro.
        * rewrite (cm_r_sig _ _ _ C1), (cm_r_sig _ _ _ C2). apply (ag_r _ _ _ Hag).
        * rewrite (wf_r_shape _ W1'). exact B1.
        * destruct (nth_error (a_data (probabilities s1)) b) as [p|] eqn:Ep.
          -- destruct (batch_get s1 h1 b p W1 A1 Hs1 Ep) as [hv Hhv].
             destruct (batch_get s1 _ b p W1 (wf_r _ W1) (wf_r_shape _ W1) Ep) as [r Hr].
             rewrite (cm_r _ _ _ C1 b p r hv Ep Hr Hhv).
             rewrite (cm_r _ _ _ C2 b p r hv); [now rewrite Nr|congruence..].
          -- assert (X1 : nth_error (a_data (residuals s1')) b = None).
             { apply (batch_none s1); auto; [exact (wf_r _ W1')|]. rewrite (wf_r_shape _ W1'). exact B1. }
             assert (X2 : nth_error (a_data (residuals s2')) b = None).
             { apply (batch_none s2); auto; [exact (wf_r _ W2')|]. rewrite (wf_r_shape _ W2'). exact B2. }
             congruence.
      + apply agree_batch_intro.
        * rewrite (cm_i_sig _ _ _ C1), (cm_i_sig _ _ _ C2). apply (ag_i _ _ _ Hag).
        * rewrite (wf_i_shape _ W1'). exact B1.
        * destruct (nth_error (a_data (probabilities s1)) b) as [p|] eqn:Ep.
          -- destruct (batch_get s1 _ b p W1 (wf_i _ W1) (wf_i_shape _ W1) Ep) as [n Hn].
             rewrite (cm_i _ _ _ C1 b p n Ep Hn).
             rewrite (cm_i _ _ _ C2 b p n); [now rewrite Ni|congruence..].
          -- assert (X1 : nth_error (a_data (iterations s1')) b = None).
             { apply (batch_none s1); auto; [exact (wf_i _ W1')|]. rewrite (wf_i_shape _ W1'). exact B1. }
             assert (X2 : nth_error (a_data (iterations s2')) b = None).
             { apply (batch_none s2); auto; [exact (wf_i _ W2')|]. rewrite (wf_i_shape _ W2'). exact B2. }
             congruence.
      + split.
        * rewrite (cm_keys_a _ _ _ C1), (cm_keys_a _ _ _ C2). apply (ag_acc _ _ _ Hag).
        * intros k t1' t2' Ht1' Ht2'.
          assert (Hin : In k (dkeys (accumulators s1))) by (rewrite <- (cm_keys_a _ _ _ C1); apply dget_keys; eauto).
          apply dget_keys in Hin as [t1 Ht1].
          destruct (agree_dict_get _ _ _ _ _ _ (ag_acc _ _ _ Hag) Ht1) as (t2 & Ht2 & Agt).
          destruct (cm_acc _ _ _ C1 k t1 Ht1) as (u1 & x1 & Hu1 & Hx1 & Al1 & L1 & F1).
          destruct (cm_acc _ _ _ C2 k t2 Ht2) as (u2 & x2 & Hu2 & Hx2 & Al2 & L2 & F2).
          assert (x1 = t1') by congruence. assert (x2 = t2') by congruence. subst x1 x2.
          destruct (proj2 (ag_upd _ _ _ Hag) _ _ _ Hu1 Hu2) as [_ Agu].
          apply Forall2_nth in Agu as [Lu Agu].
          assert (Hst : structure t1' = structure t2').
          { rewrite (proj1 Al1), (proj1 Al2). apply Agt. }
          split; [exact Hst|]. apply Forall2_nth. split; [now apply structure_eq_length|].
          intros l a1' a2' Ha1' Ha2'.
          destruct (nth_error_same_length _ (leaves t1) _ _ (alike_len _ _ Al1) Ha1') as [a1 Ha1].
          destruct (agree_tree_nth _ _ _ _ _ _ Agt Ha1) as (a2 & Ha2 & [Sg Ag]).
          pose proof (alike_nth _ _ _ _ _ Al1 Ha1' Ha1) as Sg1.
          pose proof (alike_nth _ _ _ _ _ Al2 Ha2' Ha2) as Sg2.
          split; [congruence|]. intros R HR j Hj.
          injection Sg1 as Sg1 _. injection Sg2 as Sg2 _. injection Sg as Sgs _.
          assert (HR1 : a_shape a1 = batch_shape s1 ++ R) by congruence.
          assert (HR2 : a_shape a2 = batch_shape s2 ++ R) by congruence.
          destruct (nth_error_same_length _ (leaves u1) l a1 (eq_sym L1) Ha1) as [ul1 Hul1].
          destruct (nth_error_same_length _ (leaves u2) l a2 (eq_sym L2) Ha2) as [ul2 Hul2].
          destruct (ready_leaf s1 k t1 u1 l a1 ul1 W1 P1 R1 Ht1 Hu1 Ha1 Hul1) as [Us1 Ul1].
          destruct (Agu l ul1 ul2 Hul1 Hul2) as [_ Agul].
          specialize (Ag R HR1 j Hj). specialize (Agul R (eq_trans Us1 HR1) j Hj).
          destruct (Forall_nth _ _ _ _ (wf_acc _ W1 _ _ Ht1) Ha1) as (Aw1 & _).
          destruct (Forall_nth _ _ _ _ (wf_acc _ W2 _ _ Ht2) Ha2) as (Aw2 & _).
          destruct (nth_error (a_data a1) j) as [av|] eqn:Eav.
          -- destruct (nth_error_same_length _ (a_data ul1) j av (eq_sym Ul1) Eav) as [uv Huv].
             assert (Hjb : exists p, nth_error (a_data (probabilities s1)) b = Some p).
             { apply nth_error_lt. rewrite (wf_batch_len s1 W1).
               unfold awf, twf in Aw1. fold (a_shape a1) in Aw1. rewrite HR1 in Aw1.
               destruct (size_pos_nth _ _ _ _ _ Aw1 Eav) as [_ Hx]. now rewrite Hj in Hx. }
             destruct Hjb as [p Hp]. destruct (batch_get s1 h1 b p W1 A1 Hs1 Hp) as [hv Hhv].
             rewrite (F1 l a1 ul1 a1' Ha1 Hul1 Ha1' R HR1 j av uv p hv Eav Huv) by (rewrite Hj; assumption).
             rewrite (F2 l a2 ul2 a2' Ha2 Hul2 Ha2' R HR2 j av uv p hv)
               by (rewrite ?Hj; congruence).
             now rewrite Na.
          -- assert (X1 : nth_error (a_data a1') j = None).
             { apply nth_error_None. apply nth_error_None in Eav.
               destruct (Forall_nth _ _ _ _ (wf_acc _ W1' _ _ Ht1') Ha1') as (Aw1' & _).
               unfold awf, twf in Aw1, Aw1'. unfold a_data in *. rewrite Aw1'. rewrite Aw1 in Eav.
               unfold a_shape in Sg1. now rewrite Sg1. }
             assert (X2 : nth_error (a_data a2') j = None).
             { apply nth_error_None. symmetry in Ag. apply nth_error_None in Ag.
               destruct (Forall_nth _ _ _ _ (wf_acc _ W2' _ _ Ht2') Ha2') as (Aw2' & _).
               unfold awf, twf in Aw2, Aw2'. unfold a_data in *. rewrite Aw2'. rewrite Aw2 in Ag.
               unfold a_shape in Sg2. now rewrite Sg2. }
             congruence.
      + rewrite (cm_def _ _ _ C1), (cm_def _ _ _ C2). apply Hag.
      + split.
        * rewrite (cm_keys_u _ _ _ C1), (cm_keys_u _ _ _ C2). apply (ag_upd _ _ _ Hag).
        * intros k u1 u2 Hu1 Hu2.
          assert (I1 : In k (dkeys (updates s1))) by (rewrite <- (cm_keys_u _ _ _ C1); apply dget_keys; eauto).
          assert (I2 : In k (dkeys (updates s2))) by (rewrite <- (cm_keys_u _ _ _ C2); apply dget_keys; eauto).
          rewrite (cm_upd _ _ _ C1 k I1) in Hu1. rewrite (cm_upd _ _ _ C2 k I2) in Hu2.
          inversion Hu1; inversion Hu2; subst. split; [reflexivity|constructor].
    - destruct (proj2 O2 (proj1 Tr (proj1 O1 (ex_intro _ s1' eq_refl)))) as [y Hy]. discriminate.
    - destruct (proj2 O1 (proj2 Tr (proj1 O2 (ex_intro _ s2' eq_refl)))) as [y Hy]. discriminate.
    - destruct (iterate_err s1 h1 e1 W1 P1 A1 E1) as [(X & Y)|[(X & Y & Z)|(X & Y & Z & T)]];
      destruct (iterate_err s2 h2 e2 W2 P2 A2 E2) as [(X' & Y')|[(X' & Y' & Z')|(X' & Y' & Z' & T')]];
      congruence.
  Qed.

  Lemma cache_agree b (s1 s2 : st) name i1 i2 :
    agree b s1 s2 -> agree_tree b (batch_shape s1) i1 i2 ->
    match cache_update s1 name i1, cache_update s2 name i2 with
    | Ok s1', Ok s2' => agree b s1' s2'
    | Err e1, Err e2 => e1 = e2
    | _, _ => False
    end.
  Proof.
    intros Hag Hi. rewrite !cache_update_char. pose proof (ag_upd _ _ _ Hag) as Hu.
    pose proof Hu as [Hk Hd].
    destruct (dget name (updates s1)) as [u1|] eqn:E1.
    - destruct (agree_dict_get _ _ _ _ _ _ Hu E1) as (u2 & E2 & [Hst Hf]). rewrite E2.
      rewrite (is_none_structure _ _ Hst). destruct (is_none u2); [|reflexivity].
      destruct Hag. constructor; unfold batch_shape;
        cbn [with_updates epsilon iterations residuals probabilities defaults accumulators updates
             depression_constant error_mode]; try assumption.
      split.
      + rewrite !dkeys_dset_in; [assumption|apply dget_keys; eauto..].
      + intros k t1 t2 H1 H2. rewrite dget_dset in H1, H2.
        destruct (String.eqb k name); [|eauto]. inversion H1; inversion H2; subst. exact Hi.
    - assert (E2 : dget name (updates s2) = None).
      { apply dget_none. rewrite <- Hk. now apply dget_none. }
      rewrite E2. reflexivity.
  Qed.

  Lemma idle_transfer b (s1 s2 : st) : agree b s1 s2 -> idle s1 -> idle s2.
  Proof.
    intros Hag Hi k u2 Hu2. apply agree_sym in Hag.
    destruct (agree_dict_get _ _ _ _ _ _ (ag_upd _ _ _ Hag) Hu2) as (u1 & Hu1 & [Hst _]).
    rewrite (is_none_structure _ _ Hst). eauto.
  Qed.
  Lemma resettable_transfer b (s1 s2 : st) : agree b s1 s2 -> resettable s1 -> resettable s2.
  Proof.
    intros Hag Hr k t2 Ht2. rewrite (agree_shape _ _ _ Hag). apply agree_sym in Hag.
    destruct (agree_dict_get _ _ _ _ _ _ (ag_acc _ _ _ Hag) Ht2) as (t1 & Ht1 & [Hst _]).
    destruct (Hr k t1 Ht1) as [Hx|[[a Hx]|Hx]]; [now left| |].
    - right. left. subst t1. destruct t2 as [a2|]; [eauto|discriminate].
    - right. right. apply length_zero_iff_nil. apply structure_eq_length in Hst. rewrite Hst, Hx. reflexivity.
  Qed.

  Theorem reset_agree b (s1 s2 : st) :
    wf s1 -> wf s2 -> agree b s1 s2 ->
    match reset_batches s1, reset_batches s2 with
    | Ok s1', Ok s2' => agree b s1' s2'
    | Err e1, Err e2 => e1 = e2
    | _, _ => False
    end.
  Proof.
    intros W1 W2 Hag. pose proof (agree_sym _ _ _ Hag) as Hag'.
    pose proof (reset_ok_iff s1 W1) as O1. pose proof (reset_ok_iff s2 W2) as O2.
    assert (Tr : (idle s1 /\ resettable s1) <-> (idle s2 /\ resettable s2)).
    { split; intros [X Y]; (split; [eapply idle_transfer; eauto|eapply resettable_transfer; eauto]). }
    destruct (reset_batches s1) as [s1'|e1] eqn:E1, (reset_batches s2) as [s2'|e2] eqn:E2.
    - clear Tr O1 O2. destruct (reset_effect s1 s1' W1 E1) as [C1 W1']. destruct (reset_effect s2 s2' W2 E2) as [C2 W2'].
      destruct (elementwise_eq s1 s2 (ag_eps _ _ _ Hag) (ag_dep _ _ _ Hag)) as (_ & _ & _ & _ & Nk & Nh).
      pose proof (rs_p_sig _ _ C1) as S1. injection S1 as B1 _. fold (batch_shape s1') (batch_shape s1) in B1.
      pose proof (rs_p_sig _ _ C2) as S2. injection S2 as B2 _. fold (batch_shape s2') (batch_shape s2) in B2.
      pose proof (agree_shape _ _ _ Hag) as EB.
      assert (Hbp : nth_error (a_data (probabilities s1)) b = nth_error (a_data (probabilities s2)) b)
        by (apply (agree_batch b (batch_shape s1)); [apply Hag|reflexivity]).
      assert (Hbr : nth_error (a_data (residuals s1)) b = nth_error (a_data (residuals s2)) b)
        by (apply (agree_batch b (batch_shape s1)); [apply Hag|exact (wf_r_shape _ W1)]).
      assert (Hbi : nth_error (a_data (iterations s1)) b = nth_error (a_data (iterations s2)) b)
        by (apply (agree_batch b (batch_shape s1)); [apply Hag|exact (wf_i_shape _ W1)]).
      constructor; rewrite ?B1.
      + rewrite (rs_eps _ _ C1), (rs_eps _ _ C2). apply Hag.
      + rewrite (rs_dep _ _ C1), (rs_dep _ _ C2). apply Hag.
      + rewrite (rs_mode _ _ C1), (rs_mode _ _ C2). apply Hag.
      + apply agree_batch_intro; [|exact B1|].
        * rewrite (rs_p_sig _ _ C1), (rs_p_sig _ _ C2). apply (ag_p _ _ _ Hag).
        * destruct (nth_error (a_data (probabilities s1)) b) as [p|] eqn:Ep.
          -- rewrite (rs_p _ _ C1 b p Ep), (rs_p _ _ C2 b p); [now rewrite Nk|congruence].
          -- assert (X1 : nth_error (a_data (probabilities s1')) b = None).
             { apply (batch_none s1); auto. exact (wf_p _ W1'). }
             assert (X2 : nth_error (a_data (probabilities s2')) b = None).
             { apply (batch_none s2); auto. exact (wf_p _ W2'). }
             congruence.
      + apply agree_batch_intro.
        * rewrite (rs_r_sig _ _ C1), (rs_r_sig _ _ C2). apply (ag_r _ _ _ Hag).
        * rewrite (wf_r_shape _ W1'). exact B1.
        * destruct (nth_error (a_data (probabilities s1)) b) as [p|] eqn:Ep.
          -- destruct (batch_get s1 _ b p W1 (wf_r _ W1) (wf_r_shape _ W1) Ep) as [r Hr].
             rewrite (rs_r _ _ C1 b p r Ep Hr), (rs_r _ _ C2 b p r); [now rewrite Nk|congruence..].
          -- assert (X1 : nth_error (a_data (residuals s1')) b = None).
             { apply (batch_none s1); auto; [exact (wf_r _ W1')|]. rewrite (wf_r_shape _ W1'). exact B1. }
             assert (X2 : nth_error (a_data (residuals s2')) b = None).
             { apply (batch_none s2); auto; [exact (wf_r _ W2')|]. rewrite (wf_r_shape _ W2'). exact B2. }
             congruence.
      + apply agree_batch_intro.
        * rewrite (rs_i_sig _ _ C1), (rs_i_sig _ _ C2). apply (ag_i _ _ _ Hag).
        * rewrite (wf_i_shape _ W1'). exact B1.
        * destruct (nth_error (a_data (probabilities s1)) b) as [p|] eqn:Ep.
          -- destruct (batch_get s1 _ b p W1 (wf_i _ W1) (wf_i_shape _ W1) Ep) as [n Hn].
             rewrite (rs_i _ _ C1 b p n Ep Hn), (rs_i _ _ C2 b p n); [now rewrite Nk|congruence..].
          -- assert (X1 : nth_error (a_data (iterations s1')) b = None).
             { apply (batch_none s1); auto; [exact (wf_i _ W1')|]. rewrite (wf_i_shape _ W1'). exact B1. }
             assert (X2 : nth_error (a_data (iterations s2')) b = None).
             { apply (batch_none s2); auto; [exact (wf_i _ W2')|]. rewrite (wf_i_shape _ W2'). exact B2. }
             congruence.
      + split.
        * rewrite (rs_keys _ _ C1), (rs_keys _ _ C2). apply (ag_acc _ _ _ Hag).
        * intros k t1' t2' Ht1' Ht2'.
          assert (Hin : In k (dkeys (accumulators s1))) by (rewrite <- (rs_keys _ _ C1); apply dget_keys; eauto).
          apply dget_keys in Hin as [t1 Ht1].
          destruct (agree_dict_get _ _ _ _ _ _ (ag_acc _ _ _ Hag) Ht1) as (t2 & Ht2 & Agt).
          destruct (default_of s1 k t1 W1 Ht1) as (d1 & Hd1 & Ald1 & Awd1).
          destruct (default_of s2 k t2 W2 Ht2) as (d2 & Hd2 & Ald2 & Awd2).
          destruct (rs_acc _ _ C1 k t1 d1 Ht1 Hd1) as (x1 & Hx1 & Al1 & F1).
          destruct (rs_acc _ _ C2 k t2 d2 Ht2 Hd2) as (x2 & Hx2 & Al2 & F2).
          assert (x1 = t1') by congruence. assert (x2 = t2') by congruence. subst x1 x2.
          destruct (proj2 (ag_def _ _ _ Hag) _ _ _ Hd1 Hd2) as [_ Agd].
          apply Forall2_nth in Agd as [Ld Agd].
          assert (Hst : structure t1' = structure t2').
          { rewrite (proj1 Al1), (proj1 Al2). apply Agt. }
          split; [exact Hst|]. apply Forall2_nth. split; [now apply structure_eq_length|].
          intros l a1' a2' Ha1' Ha2'.
          destruct (nth_error_same_length _ (leaves t1) _ _ (alike_len _ _ Al1) Ha1') as [a1 Ha1].
          destruct (agree_tree_nth _ _ _ _ _ _ Agt Ha1) as (a2 & Ha2 & [Sg Ag]).
          pose proof (alike_nth _ _ _ _ _ Al1 Ha1' Ha1) as Sg1.
          pose proof (alike_nth _ _ _ _ _ Al2 Ha2' Ha2) as Sg2.
          split; [congruence|]. intros R HR j Hj.
          injection Sg1 as Sg1 _. injection Sg2 as Sg2 _. injection Sg as Sgs _.
          assert (HR1 : a_shape a1 = batch_shape s1 ++ R) by congruence.
          assert (HR2 : a_shape a2 = batch_shape s2 ++ R) by congruence.
          destruct (nth_error_same_length _ (leaves d1) l a1 (alike_len _ _ Ald1) Ha1) as [dl1 Hdl1].
          destruct (nth_error_same_length _ (leaves d2) l a2 (alike_len _ _ Ald2) Ha2) as [dl2 Hdl2].
          pose proof (alike_nth _ _ _ _ _ Ald1 Ha1 Hdl1) as Sd1. injection Sd1 as Sd1 _.
          destruct (Agd l dl1 dl2 Hdl1 Hdl2) as [_ Agdl].
          specialize (Ag R HR1 j Hj).
          assert (HRd : a_shape dl1 = batch_shape s1 ++ R) by congruence.
          specialize (Agdl R HRd j Hj).
          destruct (Forall_nth _ _ _ _ (wf_acc _ W1 _ _ Ht1) Ha1) as (Aw1 & _).
          destruct (Forall_nth _ _ _ _ (wf_acc _ W2 _ _ Ht2) Ha2) as (Aw2 & _).
          destruct (nth_error (a_data a1) j) as [av|] eqn:Eav.
          -- assert (Ul1 : length (a_data a1) = length (a_data dl1)).
             { pose proof (Forall_nth _ _ _ _ Awd1 Hdl1) as Hawd. unfold awf, twf in Aw1, Hawd.
               unfold a_data. rewrite Aw1, Hawd. unfold a_shape in Sd1. now rewrite Sd1. }
             destruct (nth_error_same_length _ (a_data dl1) j av Ul1 Eav) as [dv Hdv].
             assert (Hjb : exists p, nth_error (a_data (probabilities s1)) b = Some p).
             { apply nth_error_lt. rewrite (wf_batch_len s1 W1).
               unfold awf, twf in Aw1. fold (a_shape a1) in Aw1. rewrite HR1 in Aw1.
               destruct (size_pos_nth _ _ _ _ _ Aw1 Eav) as [_ Hx]. now rewrite Hj in Hx. }
             destruct Hjb as [p Hp].
             rewrite (F1 l a1 dl1 a1' Ha1 Hdl1 Ha1' R HR1 j av dv p Eav Hdv) by (rewrite Hj; assumption).
             rewrite (F2 l a2 dl2 a2' Ha2 Hdl2 Ha2' R HR2 j av dv p) by (rewrite ?Hj; congruence).
             now rewrite Nh.
          -- assert (X1 : nth_error (a_data a1') j = None).
             { apply nth_error_None. apply nth_error_None in Eav.
               destruct (Forall_nth _ _ _ _ (wf_acc _ W1' _ _ Ht1') Ha1') as (Aw1' & _).
               unfold awf, twf in Aw1, Aw1'. unfold a_data in *. rewrite Aw1'. rewrite Aw1 in Eav.
               unfold a_shape in Sg1. now rewrite Sg1. }
             assert (X2 : nth_error (a_data a2') j = None).
             { apply nth_error_None. symmetry in Ag. apply nth_error_None in Ag.
               destruct (Forall_nth _ _ _ _ (wf_acc _ W2' _ _ Ht2') Ha2') as (Aw2' & _).
               unfold awf, twf in Aw2, Aw2'. unfold a_data in *. rewrite Aw2'. rewrite Aw2 in Ag.
               unfold a_shape in Sg2. now rewrite Sg2. }
             congruence.
      + rewrite (rs_def _ _ C1), (rs_def _ _ C2). apply Hag.
      + rewrite (rs_upd _ _ C1), (rs_upd _ _ C2). apply Hag.
    - destruct (proj2 O2 (proj1 Tr (proj1 O1 (ex_intro _ s1' eq_refl)))) as [y Hy]. discriminate.
    - destruct (proj2 O1 (proj2 Tr (proj1 O2 (ex_intro _ s2' eq_refl)))) as [y Hy]. discriminate.
    - destruct (reset_err s1 e1 W1 E1) as [(X & Y)|(X & Y & Z)];
      destruct (reset_err s2 e2 W2 E2) as [(X' & Y')|(X' & Y' & Z')]; try congruence.
      + exfalso. apply X. eapply idle_transfer; eauto.
      + exfalso. apply X'. eapply idle_transfer; eauto.
  Qed.


  Theorem run_agree b (s1 s2 : st) cs1 cs2 :
    wf s1 -> wf s2 -> wf_pending s1 -> wf_pending s2 ->
    Forall call_wf cs1 -> Forall call_wf cs2 ->
    agree b s1 s2 -> Forall2 (agree_call b (batch_shape s1)) cs1 cs2 ->
    agree b (run s1 cs1) (run s2 cs2).
  Proof.
    intros W1 W2 P1 P2 C1 C2 Hag Hcs. revert s1 s2 W1 W2 P1 P2 Hag C1 C2 Hcs.
    revert cs2. induction cs1 as [|c1 cs1 IH]; intros cs2 s1 s2 W1 W2 P1 P2 Hag C1 C2 Hcs;
      inversion Hcs as [|? c2 ? cs2' Hc Hcs']; subst; [exact Hag|].
    inversion C1 as [|? ? K1 K1']; inversion C2 as [|? ? K2 K2']; subst.
    rewrite !run_cons.
    destruct (after_wf s1 c1 W1 P1 K1) as [A1 A2]. destruct (after_wf s2 c2 W2 P2 K2) as [A3 A4].
    assert (Hag1 : agree b (after s1 c1) (after s2 c2)).
    { unfold after. destruct c1 as [n1 i1|h1|], c2 as [n2 i2|h2|]; try contradiction;
        cbn [apply_call agree_call call_wf] in *.
      - destruct Hc as [Hn Hi]. subst n2. pose proof (cache_agree b s1 s2 n1 i1 i2 Hag Hi) as H.
        destruct (cache_update s1 n1 i1), (cache_update s2 n1 i2); try contradiction; assumption.
      - pose proof (iterate_agree b s1 s2 h1 h2 W1 W2 P1 P2 K1 K2 Hag Hc) as H.
        destruct (iterate_act s1 h1), (iterate_act s2 h2); try contradiction; assumption.
      - pose proof (reset_agree b s1 s2 W1 W2 Hag) as H.
        destruct (reset_batches s1), (reset_batches s2); try contradiction; assumption. }
    apply IH; auto.
    assert (EB : batch_shape (after s1 c1) = batch_shape s1).
    { pose proof (sf_p _ _ (after_frame s1 c1 W1 P1 K1)) as E. injection E as E _. exact E. }
    rewrite EB. exact Hcs'.
  Qed.
End Agree.
