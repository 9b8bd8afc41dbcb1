(** * Facts about core/tensoreditor.py *)
From Coq Require Import QArith Qcanon.
From Verif Require Import Base PyTree Tensor Num Utils States Controller Editor Wf Spec History ElementSpec UtilsSpec EditorSpec.
From Verif Require Import BaseFacts PyTreeFacts TensorFacts ControllerFacts IterateFacts ResetFacts HistoryFacts UtilsFacts.
From Verif Require Import AgreeFacts QcFacts GravesFacts ExactFacts.
Close Scope Qc_scope. Close Scope Q_scope. Open Scope string_scope. Open Scope list_scope. Open Scope nat_scope.

Section EditorFacts.
  Context {N : numsys}.
  Notation st := (state N).
  Notation tr := (tree (array N)).
  Implicit Types e : editor N.

  Lemma shape_eqb_iff a b : shape_eqb a b = true <-> a = b.
  Proof. unfold shape_eqb. destruct (shape_eq_dec a b); split; congruence. Qed.
  Lemma dtype_eqb_iff a b : dtype_eqb a b = true <-> a = b.
  Proof. unfold dtype_eqb. destruct (dtype_eq_dec a b); split; congruence. Qed.
  Lemma same_checks (o v : array N) :
    check_same_shape o v = true /\ check_same_dtype o v = true <-> sig v = sig o.
  Proof.
    unfold check_same_shape, check_same_dtype, sig. rewrite shape_eqb_iff, dtype_eqb_iff.
    split; [intros [-> ->]; reflexivity|]. intros [= -> ->]. auto.
  Qed.

  (** validation in the two modes *)
  Lemma checks_standard e bs : ed_mode e = m_standard ->
    (forallb (fun b => b) bs = true -> execute_checks e (Ok bs) = Ok tt) /\
    (forallb (fun b => b) bs <> true -> execute_checks e (Ok bs) = Err JaxRuntimeError).
  Proof.
    intros M. unfold execute_checks. rewrite M, String.eqb_refl. cbn [bind]. unfold guard.
    destruct (forallb _ bs); split; congruence.
  Qed.
  Lemma checks_silent e r : ed_mode e <> m_standard -> execute_checks e r = Ok tt.
  Proof. intros M. unfold execute_checks. destruct (String.eqb_spec (ed_mode e) m_standard); congruence. Qed.

  (** A setter either succeeds with the given state or fails with a checkify error, as the
      condition [P] says. *)
  Definition decides (P : Prop) (r : res (editor N)) (e' : editor N) : Prop :=
    (P -> r = Ok e') /\ (~ P -> r = Err JaxRuntimeError).

  Lemma decides_iff P r e' : decides P r e' -> (P \/ ~ P) -> (P <-> exists e1, r = Ok e1).
  Proof.
    intros [H1 H2] [HP|HP].
    - split; auto. intros _. exists e'. auto.
    - split; [tauto|]. intros [e1 H]. rewrite (H2 HP) in H. discriminate.
  Qed.

  Lemma probability_checks (v : array N) :
    forallb (fun b => b) (checks_probability v) = true <-> Forall in_unit (a_data v).
  Proof.
    unfold checks_probability, in_unit. cbn [forallb]. rewrite andb_true_r, andb_true_iff, !negb_true_iff.
    rewrite Forall_forall. split.
    - intros [H1 H2] x Hx. split.
      + destruct (v_ltb N x (v_zero N)) eqn:E; [|reflexivity]. exfalso.
        assert (existsb (fun v => v_ltb N v (v_zero N)) (a_data v) = true) by (apply existsb_exists; eauto). congruence.
      + destruct (v_ltb N (v_one N) x) eqn:E; [|reflexivity]. exfalso.
        assert (existsb (fun v => v_ltb N (v_one N) v) (a_data v) = true) by (apply existsb_exists; eauto). congruence.
    - intros H. split; apply not_true_iff_false; intros E; apply existsb_exists in E as (x & Hx & E);
        destruct (H x Hx); congruence.
  Qed.

  Lemma set_probabilities_char e v : ed_mode e = m_standard ->
    decides (sig v = sig (probabilities (ed_state e)) /\ Forall in_unit (a_data v)) (set_probabilities e v)
      (let s := ed_state e in
       mkEd (mkState (epsilon s) (iterations s) (residuals s) v (defaults s) (accumulators s)
               (updates s) (depression_constant s) (error_mode s)) (ed_mode e)).
  Proof.
    intros M. unfold set_probabilities.
    set (bs := check_same_shape _ _ :: _). destruct (checks_standard e bs M) as [H1 H2].
    assert (B : forallb (fun b => b) bs = true <-> sig v = sig (probabilities (ed_state e)) /\ Forall in_unit (a_data v)).
    { unfold bs. cbn [forallb]. rewrite !andb_true_iff. rewrite <- same_checks, <- probability_checks. tauto. }
    split; intros HP; [rewrite H1 by (now apply B)|rewrite H2 by (rewrite B; exact HP)]; reflexivity.
  Qed.
  Lemma set_residuals_char e v : ed_mode e = m_standard ->
    decides (sig v = sig (residuals (ed_state e)) /\ Forall in_unit (a_data v)) (set_residuals e v)
      (let s := ed_state e in
       mkEd (mkState (epsilon s) (iterations s) v (probabilities s) (defaults s) (accumulators s)
               (updates s) (depression_constant s) (error_mode s)) (ed_mode e)).
  Proof.
    intros M. unfold set_residuals.
    set (bs := check_same_shape _ _ :: _). destruct (checks_standard e bs M) as [H1 H2].
    assert (B : forallb (fun b => b) bs = true <-> sig v = sig (residuals (ed_state e)) /\ Forall in_unit (a_data v)).
    { unfold bs. cbn [forallb]. rewrite !andb_true_iff. rewrite <- same_checks, <- probability_checks. tauto. }
    split; intros HP; [rewrite H1 by (now apply B)|rewrite H2 by (rewrite B; exact HP)]; reflexivity.
  Qed.
  Lemma set_iterations_char e v : ed_mode e = m_standard ->
    decides (sig v = sig (iterations (ed_state e)) /\ Forall (fun x => v_leb N (v_zero N) x = true) (a_data v))
      (set_iterations e v)
      (let s := ed_state e in
       mkEd (mkState (epsilon s) v (residuals s) (probabilities s) (defaults s) (accumulators s)
               (updates s) (depression_constant s) (error_mode s)) (ed_mode e)).
  Proof.
    intros M. unfold set_iterations.
    set (bs := [_; _; _]). destruct (checks_standard e bs M) as [H1 H2].
    assert (B : forallb (fun b => b) bs = true <-> sig v = sig (iterations (ed_state e)) /\ Forall (fun x => v_leb N (v_zero N) x = true) (a_data v)).
    { unfold bs. cbn [forallb]. rewrite !andb_true_iff. rewrite <- same_checks. unfold check_natural. rewrite forallb_forall, Forall_forall. tauto. }
    split; intros HP; [rewrite H1 by (now apply B)|rewrite H2 by (rewrite B; exact HP)]; reflexivity.
  Qed.
  Lemma set_epsilon_char e x : ed_mode e = m_standard ->
    decides (s_leb N (s_zero N) x = true /\ s_leb N x (s_one N) = true) (set_epsilon e x)
      (let s := ed_state e in
       mkEd (mkState x (iterations s) (residuals s) (probabilities s) (defaults s) (accumulators s)
               (updates s) (depression_constant s) (error_mode s)) (ed_mode e)).
  Proof.
    intros M. unfold set_epsilon.
    set (bs := [_; _]). destruct (checks_standard e bs M) as [H1 H2].
    assert (B : forallb (fun b => b) bs = true <-> s_leb N (s_zero N) x = true /\ s_leb N x (s_one N) = true).
    { unfold bs. cbn [forallb]. rewrite !andb_true_iff. tauto. }
    split; intros HP; [rewrite H1 by (now apply B)|rewrite H2 by (rewrite B; exact HP)]; reflexivity.
  Qed.

  Lemma leaves_checks (t v : tr) : forallb (fun b => b) (checks_leaves t v) = true <-> zipped_alike t v.
  Proof.
    unfold checks_leaves, zipped_alike. generalize (leaves t) (leaves v). clear.
    induction l as [|a l IH]; intros [|b l']; cbn [map2 concat forallb].
    - split; auto. intros _ i a b H. destruct i; discriminate.
    - split; auto. intros _ i a b' H. destruct i; discriminate.
    - split; auto. intros _ i a' b _ H. destruct i; discriminate.
    - cbn [app forallb]. rewrite !andb_true_iff, IH. split.
      + intros (H1 & H2 & H3) [|i] x y Hx Hy; cbn in Hx, Hy.
        * injection Hx as <-. injection Hy as <-. symmetry. apply same_checks. auto.
        * eapply H3; eauto.
      + intros H. assert (E := H 0 a b eq_refl eq_refl). symmetry in E. apply same_checks in E as [E1 E2].
        repeat split; auto. intros i x y. exact (H (S i) x y).
  Qed.
  Lemma alike_zipped (t v : tr) : structure t = structure v -> alike v t <-> zipped_alike t v.
  Proof.
    intros E. unfold alike, zipped_alike. assert (L := structure_eq_length _ _ E). split.
    - intros [_ H] i a b Ha Hb. apply (map_nth_error sig) in Ha. apply (map_nth_error sig) in Hb. rewrite H in Hb. congruence.
    - intros H. split; [now symmetry|]. revert H L. generalize (leaves t) (leaves v). clear.
      induction l as [|a l IH]; intros [|b l'] H L; cbn in *; try discriminate; [reflexivity|].
      f_equal; [symmetry; exact (H 0 a b eq_refl eq_refl)|]. apply IH; [intros i x y; exact (H (S i) x y)|congruence].
  Qed.

  (** the condition of set_accumulator and set_defaults *)
  Definition like_accumulator (s : st) (name : string) (v : tr) : Prop :=
    In name (dkeys (defaults s)) /\
    forall t, dget name (accumulators s) = Some t -> same_up_to_none t v /\ zipped_alike t v.
  Lemma like_checks (s : st) name v :
    exists bs, checks_like_accumulator s name v = Ok bs /\
      (forallb (fun b => b) bs = true <-> like_accumulator s name v).
  Proof.
    unfold checks_like_accumulator, like_accumulator, check_exists, dlookup, dmem.
    assert (K : In name (dkeys (defaults s)) <-> dmem name (defaults s) = true) by (symmetry; apply dmem_In).
    unfold dmem in K. destruct (dget name (accumulators s)) as [t|] eqn:A.
    - cbn [bind]. eexists. split; [reflexivity|]. cbn [forallb]. rewrite !andb_true_iff, leaves_checks, K.
      unfold check_structure. rewrite structure_equal_iff. split.
      + intros (H1 & H2 & H3). split; [exact H1|]. intros t' [= <-]. auto.
      + intros [H1 H2]. split; [exact H1|]. exact (H2 t eq_refl).
    - eexists. split; [reflexivity|]. cbn [forallb]. rewrite andb_true_r, K. split; [|tauto].
      intros H. split; [exact H|]. discriminate.
  Qed.
  Lemma set_accumulator_char e name v : ed_mode e = m_standard ->
    decides (like_accumulator (ed_state e) name v) (set_accumulator e name v)
      (let s := ed_state e in
       mkEd (mkState (epsilon s) (iterations s) (residuals s) (probabilities s) (defaults s)
               (dset name v (accumulators s)) (updates s) (depression_constant s) (error_mode s)) (ed_mode e)).
  Proof.
    intros M. unfold set_accumulator. destruct (like_checks (ed_state e) name v) as (bs & -> & B).
    destruct (checks_standard e bs M) as [H1 H2].
    split; intros HP; [rewrite H1 by (now apply B)|rewrite H2 by (rewrite B; exact HP)]; reflexivity.
  Qed.
  Lemma set_defaults_char e name v : ed_mode e = m_standard ->
    decides (like_accumulator (ed_state e) name v) (set_defaults e name v)
      (let s := ed_state e in
       mkEd (mkState (epsilon s) (iterations s) (residuals s) (probabilities s) (dset name v (defaults s))
               (accumulators s) (updates s) (depression_constant s) (error_mode s)) (ed_mode e)).
  Proof.
    intros M. unfold set_defaults. destruct (like_checks (ed_state e) name v) as (bs & -> & B).
    destruct (checks_standard e bs M) as [H1 H2].
    split; intros HP; [rewrite H1 by (now apply B)|rewrite H2 by (rewrite B; exact HP)]; reflexivity.
  Qed.
  (** set_updates *)
  Definition with_update (e : editor N) (name : string) (v : tr) : editor N :=
    let s := ed_state e in
    mkEd (mkState (epsilon s) (iterations s) (residuals s) (probabilities s) (defaults s)
            (accumulators s) (dset name v (updates s)) (depression_constant s) (error_mode s)) (ed_mode e).
  Lemma set_updates_char e name v : ed_mode e = m_standard ->
    set_updates e name v =
    match dget name (defaults (ed_state e)) with
    | Some d => if is_none v || are_pytree_structure_equal d v && forallb (fun b => b) (checks_leaves d v)
                then Ok (with_update e name v) else Err JaxRuntimeError
    | None => if is_none v then Err JaxRuntimeError else Err KeyError
    end.
  Proof.
    intros M. unfold set_updates, execute_checks. rewrite M, String.eqb_refl. unfold checks_updates, check_exists, dmem, dlookup.
    destruct (is_none v) eqn:Nv; destruct (dget name (defaults (ed_state e))) as [d|] eqn:D; cbn [bind forallb orb]; auto.
    { unfold with_update, guard. cbn. rewrite M. reflexivity. }
    unfold guard, check_structure. cbn [andb]. destruct (_ && _); [|reflexivity]. unfold with_update. cbn. now rewrite M.
  Qed.

  (** ** Silence mode *)
  Lemma silent_edit e c : ed_mode e <> m_standard -> exists e', apply_edit e c = Ok e'.
  Proof.
    intros M. destruct c; cbn [apply_edit];
      unfold set_probabilities, set_residuals, set_iterations, set_epsilon, set_accumulator, set_defaults, set_updates;
      rewrite (checks_silent e _ M); eexists; reflexivity.
  Qed.
  Lemma edit_mode e c e' : apply_edit e c = Ok e' -> ed_mode e' = ed_mode e.
  Proof.
    destruct c; cbn [apply_edit];
      unfold set_probabilities, set_residuals, set_iterations, set_epsilon, set_accumulator, set_defaults, set_updates;
      intros H; apply bind_ok in H as (u & _ & H); apply bind_ok in H as (s & _ & H); injection H as <-; reflexivity.
  Qed.

  (** ** Editing keeps states well-formed *)
  Lemma same_kind_refl (s : st) : same_kind s s.
  Proof.
    split; auto; intros k t t' H1 H2; assert (E : Some t = Some t') by congruence; injection E as ->; split; reflexivity.
  Qed.
  Lemma alike_trans (t1 t2 t3 : tr) : alike t1 t2 -> alike t2 t3 -> alike t1 t3.
  Proof. intros [A B] [C D]. split; congruence. Qed.
  Lemma alike_sym (t1 t2 : tr) : alike t1 t2 -> alike t2 t1.
  Proof. intros [A B]. split; congruence. Qed.
  Lemma same_kind_trans (s1 s2 s3 : st) : same_kind s1 s2 -> same_kind s2 s3 -> same_kind s1 s3.
  Proof.
    intros [p r i d m k kd ku a df] [p' r' i' d' m' k' kd' ku' a' df']. split; try congruence.
    - intros n t t' H1 H2.
      assert (X : exists t2, dget n (accumulators s2) = Some t2).
      { apply dget_keys. rewrite k. apply dget_keys. eauto. }
      destruct X as [t2 X]. eapply alike_trans; eauto.
    - intros n t t' H1 H2.
      assert (X : exists t2, dget n (defaults s2) = Some t2).
      { apply dget_keys. rewrite kd. apply dget_keys. eauto. }
      destruct X as [t2 X]. eapply alike_trans; eauto.
  Qed.
  Lemma frame_kind (s s' : st) : same_frame s s' -> same_kind s s'.
  Proof.
    intros [a b c d e f g h i j]. split; auto; try congruence. intros k t t' H1 H2. rewrite d in H2.
    assert (E : Some t = Some t') by congruence. injection E as ->. split; reflexivity.
  Qed.
  Lemma none_safe_kind (s s' : st) c : same_kind s s' -> edit_none_safe s c -> edit_none_safe s' c.
  Proof.
    intros K H. assert (X : forall name v, (forall t, dget name (accumulators s) = Some t -> none_safe t v) ->
      forall t, dget name (accumulators s') = Some t -> none_safe t v).
    { intros name v Hs t' Ht'. assert (E : exists t, dget name (accumulators s) = Some t).
      { apply dget_keys. rewrite <- (sk_keys _ _ K). apply dget_keys. eauto. }
      destruct E as [t Ht]. destruct (sk_acc _ _ K _ _ _ Ht Ht') as [St _]. intros Hu. rewrite St. apply (Hs t Ht).
      apply structure_equal_iff. apply structure_equal_iff in Hu. unfold are_pytree_structure_equal in *.
      apply td_eqb_eq. apply td_eqb_eq in Hu. rewrite <- Hu. symmetry. now apply structure_none_out. }
    destruct c; cbn [edit_none_safe] in *; first [exact I | exact (X _ _ H)].
  Qed.

  (** replacing a statistic by one of the same shape and dtype *)
  Lemma alike_fits B (t v : tr) : alike v t -> Forall awf (leaves v) -> Forall (leaf_fits B) (leaves t) ->
    Forall (leaf_fits B) (leaves v).
  Proof.
    intros [_ E] A F. revert E A F. generalize (leaves t) (leaves v). clear.
    induction l as [|a l IH]; intros [|b l'] E A F; cbn in E; try discriminate; constructor.
    - injection E as E1 E2 _. apply Forall_inv in A. apply Forall_inv in F. destruct F as (_ & Fl & R & HR).
      split; [exact A|]. split; [congruence|]. exists R. congruence.
    - injection E as _ _ E. apply Forall_inv_tail in A. apply Forall_inv_tail in F. apply IH; auto.
  Qed.

  Lemma edit_kind e c e' :
    wf (ed_state e) -> wf_pending (ed_state e) -> ed_mode e = m_standard -> edit_wf c -> edit_none_safe (ed_state e) c ->
    apply_edit e c = Ok e' ->
    wf (ed_state e') /\ wf_pending (ed_state e') /\ same_kind (ed_state e) (ed_state e').
  Proof.
    intros W P M Wc Sc H.
    assert (DEC : forall Q r e1, decides Q r e1 -> r = Ok e' -> (Q \/ ~ Q) -> Q /\ e' = e1).
    { intros Q r e1 [D1 D2] Hr [HQ|HQ]; [rewrite (D1 HQ) in Hr; injection Hr as <-; auto|rewrite (D2 HQ) in Hr; discriminate]. }
    assert (FD : forall (P : val N -> Prop), (forall x, P x \/ ~ P x) -> forall l, Forall P l \/ ~ Forall P l).
    { clear. intros P D l. induction l as [|x l [IH|IH]]; [left; constructor| |].
      - destruct (D x); [left; now constructor|right; intros H'; inversion H'; auto].
      - right. intros H'; inversion H'; auto. }
    assert (SD : forall a b : list nat * dtype, a = b \/ a <> b).
    { intros [a1 a2] [b1 b2]. destruct (shape_eq_dec a1 b1), (dtype_eq_dec a2 b2); [left|right|right|right]; congruence. }
    assert (ID : forall x : val N, in_unit x \/ ~ in_unit x).
    { intros x. unfold in_unit. destruct (v_ltb N x (v_zero N)), (v_ltb N (v_one N) x); [right|right|right|left]; intuition congruence. }
    assert (LD : forall x : val N, v_leb N (v_zero N) x = true \/ v_leb N (v_zero N) x <> true).
    { intros x. destruct (v_leb N (v_zero N) x); [left|right]; congruence. }
    destruct c; cbn [apply_edit edit_wf edit_none_safe] in *.
    - destruct (DEC _ _ _ (set_probabilities_char e v M) H) as [[Sg U] ->].
      { destruct (SD (sig v) (sig (probabilities (ed_state e)))), (FD in_unit ID (a_data v)); tauto. }
      cbv zeta. cbn [ed_state]. unfold sig in Sg. injection Sg as Sh Dt. destruct W. unfold batch_shape in *.
      split; [|split; [exact P|]].
      + split; unfold batch_shape; cbn [epsilon iterations residuals probabilities defaults accumulators updates depression_constant error_mode]; try congruence; auto.
        rewrite Sh. auto.
      + destruct (same_kind_refl (ed_state e)). split; auto. cbn. unfold sig. congruence.
    - destruct (DEC _ _ _ (set_residuals_char e v M) H) as [[Sg U] ->].
      { destruct (SD (sig v) (sig (residuals (ed_state e)))), (FD in_unit ID (a_data v)); tauto. }
      cbv zeta. cbn [ed_state]. unfold sig in Sg. injection Sg as Sh Dt. destruct W. unfold batch_shape in *.
      split; [|split; [exact P|]].
      + split; unfold batch_shape; cbn [epsilon iterations residuals probabilities defaults accumulators updates depression_constant error_mode]; try congruence; auto.
      + destruct (same_kind_refl (ed_state e)). split; auto. cbn. unfold sig. congruence.
    - destruct (DEC _ _ _ (set_iterations_char e v M) H) as [[Sg U] ->].
      { destruct (SD (sig v) (sig (iterations (ed_state e)))), (FD (fun x => v_leb N (v_zero N) x = true) LD (a_data v)); tauto. }
      cbv zeta. cbn [ed_state]. unfold sig in Sg. injection Sg as Sh Dt. destruct W. unfold batch_shape in *.
      split; [|split; [exact P|]].
      + split; unfold batch_shape; cbn [epsilon iterations residuals probabilities defaults accumulators updates depression_constant error_mode]; try congruence; auto.
      + destruct (same_kind_refl (ed_state e)). split; auto. cbn. unfold sig. congruence.
    - destruct (DEC _ _ _ (set_epsilon_char e x M) H) as [_ ->].
      { destruct (s_leb N (s_zero N) x), (s_leb N x (s_one N)); [left|right|right|right]; intuition congruence. }
      cbv zeta. cbn [ed_state]. split; [|split; [exact P|]].
      + destruct W. split; auto.
      + destruct (same_kind_refl (ed_state e)). split; auto.
    - destruct (like_checks (ed_state e) name v) as (bs & _ & B).
      destruct (DEC _ _ _ (set_accumulator_char e name v M) H) as [[Kd L] ->].
      { destruct (forallb (fun b => b) bs) eqn:Eb; [left; now apply B|right; rewrite <- B; congruence]. }
      cbv zeta. cbn [ed_state]. destruct (proj1 (dget_keys _ _) (proj1 (wf_keys_d _ W _) Kd)) as [t Ht].
      destruct (L t Ht) as [Hn Hz]. assert (Al : alike v t) by (apply alike_zipped; [apply (Sc t Ht Hn)|exact Hz]).
      assert (Kt : In name (dkeys (accumulators (ed_state e)))) by (apply dget_keys; eauto).
      split; [|split; [exact P|]].
      + destruct W. split; unfold batch_shape in *; cbn [epsilon iterations residuals probabilities defaults accumulators updates depression_constant error_mode]; rewrite ?(dkeys_dset_in _ _ _ Kt); auto.
        * intros k t' Hk. rewrite dget_dset in Hk. destruct (String.eqb_spec k name) as [->|Ne]; [|eauto].
          injection Hk as <-. eapply alike_fits; eauto.
        * intros k t' d Hk Hd. rewrite dget_dset in Hk. destruct (String.eqb_spec k name) as [->|Ne]; [|eauto].
          injection Hk as <-. destruct (wf_def _ _ _ Ht Hd) as [A1 A2]. split; [|exact A2]. eapply alike_trans; eauto.
      + destruct (same_kind_refl (ed_state e)). split; cbn [epsilon iterations residuals probabilities defaults accumulators updates depression_constant error_mode]; auto.
        * now apply dkeys_dset_in.
        * intros k t1 t2 H1 H2. rewrite dget_dset in H2. destruct (String.eqb_spec k name) as [->|Ne]; [|eauto].
          injection H2 as <-. assert (E : Some t = Some t1) by congruence. injection E as <-. exact Al.
    - destruct (like_checks (ed_state e) name v) as (bs & _ & B).
      destruct (DEC _ _ _ (set_defaults_char e name v M) H) as [[Kd L] ->].
      { destruct (forallb (fun b => b) bs) eqn:Eb; [left; now apply B|right; rewrite <- B; congruence]. }
      cbv zeta. cbn [ed_state]. destruct (proj1 (dget_keys _ _) (proj1 (wf_keys_d _ W _) Kd)) as [t Ht].
      destruct (L t Ht) as [Hn Hz]. assert (Al : alike v t) by (apply alike_zipped; [apply (Sc t Ht Hn)|exact Hz]).
      split; [|split; [exact P|]].
      + destruct W. split; unfold batch_shape in *; cbn [epsilon iterations residuals probabilities defaults accumulators updates depression_constant error_mode]; rewrite ?(dkeys_dset_in _ _ _ Kd); auto.
        intros k t' d Hk Hd. rewrite dget_dset in Hd. destruct (String.eqb_spec k name) as [->|Ne]; [|eauto].
        injection Hd as <-. assert (E : Some t = Some t') by congruence. injection E as <-. split; [now apply alike_sym|exact Wc].
      + destruct (same_kind_refl (ed_state e)). split; cbn [epsilon iterations residuals probabilities defaults accumulators updates depression_constant error_mode]; auto.
        * now apply dkeys_dset_in.
        * intros k d1 d2 H1 H2. rewrite dget_dset in H2. destruct (String.eqb_spec k name) as [->|Ne]; [|eauto].
          injection H2 as <-. destruct (wf_def _ W _ _ _ Ht H1) as [A1 _]. eapply alike_trans; eauto.
    - rewrite (set_updates_char e name v M) in H. destruct (dget name (defaults (ed_state e))) as [d|] eqn:D;
        [|destruct (is_none v); discriminate]. destruct (_ || _) in H; [|discriminate]. injection H as <-.
      cbn [with_update ed_state]. assert (Ku : In name (dkeys (updates (ed_state e)))).
      { apply (wf_keys_u _ W), (wf_keys_d _ W). apply dget_keys. eauto. }
      split; [|split].
      + destruct W. split; unfold batch_shape in *; cbn [epsilon iterations residuals probabilities defaults accumulators updates depression_constant error_mode]; rewrite ?(dkeys_dset_in _ _ _ Ku); auto.
      + intros k u Hu. cbn [updates] in Hu. rewrite dget_dset in Hu. destruct (String.eqb_spec k name) as [->|Ne]; [|eauto].
        injection Hu as <-. exact Wc.
      + destruct (same_kind_refl (ed_state e)). split; cbn [epsilon iterations residuals probabilities defaults accumulators updates depression_constant error_mode]; auto.
        now apply dkeys_dset_in.
  Qed.

  Lemma action_kind (s s' : st) a :
    wf s -> wf_pending s -> action_wf a -> action_none_safe s a ->
    apply_action m_standard s a = Ok s' -> wf s' /\ wf_pending s' /\ same_kind s s'.
  Proof.
    intros W P Wa Sa H. destruct a as [c|c]; cbn [apply_action action_wf action_none_safe] in *.
    - destruct (apply_call_wf s s' c W P Wa H) as [W' P']. split; [exact W'|]. split; [exact P'|]. apply frame_kind.
      assert (F := after_frame s c W P Wa). unfold after in F. rewrite H in F. exact F.
    - cbn [edit_controller] in H. unfold edit_controller in H. cbn [m_standard] in H.
      change (existsb (String.eqb m_standard) error_modes) with true in H. cbn [guard bind] in H.
      apply bind_ok in H as (e' & H & E). injection E as <-. unfold editor_build, load.
      exact (edit_kind (mkEd s m_standard) c e' W P eq_refl Wa Sa H).
  Qed.
  Theorem session_kind (s0 s : st) acts :
    wf s -> wf_pending s -> same_kind s0 s -> Forall action_wf acts -> Forall (action_none_safe s0) acts ->
    wf (session m_standard s acts) /\ wf_pending (session m_standard s acts) /\ same_kind s0 (session m_standard s acts).
  Proof.
    revert s. induction acts as [|a acts IH]; intros s W P K Wa Sa; [exact (conj W (conj P K))|].
    cbn [session fold_left]. apply Forall_cons_iff in Wa as [Wa Wr]. apply Forall_cons_iff in Sa as [Sa Sr].
    assert (Sa' : action_none_safe s a) by (destruct a; cbn in *; auto; eapply none_safe_kind; eauto).
    change (fold_left (act_on m_standard) acts (act_on m_standard s a)) with (session m_standard (act_on m_standard s a) acts).
    assert (X : wf (act_on m_standard s a) /\ wf_pending (act_on m_standard s a) /\ same_kind s0 (act_on m_standard s a)).
    { unfold act_on. destruct (apply_action m_standard s a) as [s'|x] eqn:E; [|auto].
      destruct (action_kind s s' a W P Wa Sa' E) as (A & B & C). split; [exact A|]. split; [exact B|]. eapply same_kind_trans; eauto. }
    destruct X as (A & B & C). now apply IH.
  Qed.
End EditorFacts.

(** ** Exact arithmetic: sessions keep the statistics in range *)
Notation stq := (state QcNum).
Lemma in_unit_iff (x : Qc) : in_unit (N := QcNum) x <-> (0 <= x /\ x <= 1)%Qc.
Proof. unfold in_unit. cbn [v_ltb v_zero v_one QcNum]. rewrite !Qcltb_ge. reflexivity. Qed.

Lemma call_range (s s' : stq) c :
  wf s -> wf_pending s -> call_wf c -> in_range s -> apply_call s c = Ok s' -> in_range s'.
Proof.
  intros W P Wc [[E0 E1] D Rp Rr Ri] H.
  destruct (apply_call_wf s s' c W P Wc H) as [W' P'].
  assert (F : same_frame s s'). { assert (F := after_frame s c W P Wc). unfold after in F. now rewrite H in F. }
  assert (Lp : forall i x, nth_error (a_data (probabilities s')) i = Some x -> exists p, nth_error (a_data (probabilities s)) i = Some p).
  { intros i x Hx. apply (after_get s c i x W P Wc). unfold after. now rewrite H. }
  assert (L2 : forall i x, nth_error (a_data (residuals s')) i = Some x ->
    exists p r, nth_error (a_data (probabilities s)) i = Some p /\ nth_error (a_data (residuals s)) i = Some r).
  { intros i x Hx. apply nth_error_some_lt in Hx. assert (A := wf_r _ W'). unfold awf, twf in A.
    change (data (a_ten (residuals s'))) with (a_data (residuals s')) in A. rewrite A in Hx.
    change (shape (a_ten (residuals s'))) with (a_shape (residuals s')) in Hx.
    assert (S := sf_r _ _ F). injection S as S _. rewrite S in Hx.
    assert (A1 := wf_r _ W). assert (A2 := wf_p _ W). unfold awf, twf in A1, A2.
    destruct (nth_error_lt (a_data (probabilities s)) i) as [p Hp].
    { unfold a_data. rewrite A2. rewrite (wf_r_shape _ W) in Hx. exact Hx. }
    destruct (nth_error_lt (a_data (residuals s)) i) as [r Hr].
    { unfold a_data. rewrite A1. exact Hx. }
    eauto. }
  assert (L3 : forall i x, nth_error (a_data (iterations s')) i = Some x ->
    exists p r, nth_error (a_data (probabilities s)) i = Some p /\ nth_error (a_data (iterations s)) i = Some r).
  { intros i x Hx. apply nth_error_some_lt in Hx. assert (A := wf_i _ W'). unfold awf, twf in A.
    change (data (a_ten (iterations s'))) with (a_data (iterations s')) in A. rewrite A in Hx.
    change (shape (a_ten (iterations s'))) with (a_shape (iterations s')) in Hx.
    assert (S := sf_i _ _ F). injection S as S _. rewrite S in Hx.
    assert (A1 := wf_i _ W). assert (A2 := wf_p _ W). unfold awf, twf in A1, A2.
    destruct (nth_error_lt (a_data (probabilities s)) i) as [p Hp].
    { unfold a_data. rewrite A2. rewrite (wf_i_shape _ W) in Hx. exact Hx. }
    destruct (nth_error_lt (a_data (iterations s)) i) as [r Hr].
    { unfold a_data. rewrite A1. exact Hx. }
    eauto. }
  split.
  - rewrite (sf_eps _ _ F). auto.
  - rewrite (sf_dep _ _ F). auto.
  - intros i p' Hp'. destruct (Lp i p' Hp') as [p Hp]. refine (proj1 (after_range s c W P Wc E0 D Rp i p p' Hp _)).
    unfold after. rewrite H. exact Hp'.
  - intros i r' Hr'. destruct (L2 i r' Hr') as (p & r & Hp & Hr). destruct c as [name item|h|]; cbn [apply_call call_wf] in *.
    + apply cache_same in H. subst s'. eapply Rr. exact Hr'.
    + destruct (iterate_committed s h s' W P Wc H) as (C & _ & _).
      pose proof (iterate_ok_iff s h W P Wc) as [Hok _]. destruct Hok as (Hsh & _); [eauto|].
      destruct (batch_get s h i p W Wc Hsh Hp) as [v Hv]. rewrite (cm_r _ _ _ C i p r v Hp Hr Hv) in Hr'.
      apply Some_inj in Hr'. subst r'. unfold next_r. destruct (_ && _); [|eauto].
      destruct (Rp i p Hp) as [A B]. cbn [v_sub v_one QcNum]. split; revert A B; qc.
    + destruct (reset_effect s s' W H) as [C _]. rewrite (rs_r _ _ C i p r Hp Hr) in Hr'. apply Some_inj in Hr'. subst r'.
      rewrite kept_cases. destruct (halted_at s p); [|eauto]. split; discriminate.
  - intros i r' Hr'. destruct (L3 i r' Hr') as (p & r & Hp & Hr). destruct c as [name item|h|]; cbn [apply_call call_wf] in *.
    + apply cache_same in H. subst s'. eapply Ri. exact Hr'.
    + destruct (iterate_committed s h s' W P Wc H) as (C & _ & _). rewrite (cm_i _ _ _ C i p r Hp Hr) in Hr'.
      apply Some_inj in Hr'. subst r'. unfold next_i. pose proof (Ri i r Hr) as A. destruct (halted_at s p); [exact A|].
      cbn [v_add v_one QcNum]. revert A. qc.
    + destruct (reset_effect s s' W H) as [C _]. rewrite (rs_i _ _ C i p r Hp Hr) in Hr'. apply Some_inj in Hr'. subst r'.
      rewrite kept_cases. destruct (halted_at s p); [|eauto]. discriminate.
Qed.

Lemma nth_Forall {A} (Q : A -> Prop) l i x : Forall Q l -> nth_error l i = Some x -> Q x.
Proof. rewrite Forall_forall. intros H Hx. apply H. eapply nth_error_In; eauto. Qed.

Lemma edit_range (e e' : editor QcNum) c :
  ed_mode e = m_standard -> in_range (ed_state e) -> apply_edit e c = Ok e' -> in_range (ed_state e').
Proof.
  intros M [[E0 E1] D Rp Rr Ri] H.
  assert (DEC : forall Q r e1, decides Q r e1 -> r = Ok e' -> ~ ~ Q).
  { intros Q r e1 [_ D2] Hr HQ. rewrite (D2 HQ) in Hr. discriminate. }
  assert (YES : forall Q r e1, decides Q r e1 -> r = Ok e' -> (Q \/ ~ Q) -> Q /\ e' = e1).
  { intros Q r e1 [D1 D2] Hr [HQ|HQ]; [rewrite (D1 HQ) in Hr; injection Hr as <-; auto|rewrite (D2 HQ) in Hr; discriminate]. }
  assert (FD : forall (P : Qc -> Prop), (forall x, P x \/ ~ P x) -> forall l, Forall P l \/ ~ Forall P l).
  { clear. intros P D l. induction l as [|x l [IH|IH]]; [left; constructor| |].
    - destruct (D x); [left; now constructor|right; intros H'; inversion H'; auto].
    - right. intros H'; inversion H'; auto. }
  assert (SD : forall a b : list nat * dtype, a = b \/ a <> b).
  { intros [a1 a2] [b1 b2]. destruct (shape_eq_dec a1 b1), (dtype_eq_dec a2 b2); [left|right|right|right]; congruence. }
  assert (ID : forall x : Qc, in_unit (N := QcNum) x \/ ~ in_unit (N := QcNum) x).
  { intros x. unfold in_unit. destruct (v_ltb QcNum x (v_zero QcNum)), (v_ltb QcNum (v_one QcNum) x); [right|right|right|left]; intuition congruence. }
  assert (LD : forall x : Qc, v_leb QcNum (v_zero QcNum) x = true \/ v_leb QcNum (v_zero QcNum) x <> true).
  { intros x. destruct (v_leb QcNum (v_zero QcNum) x); [left|right]; congruence. }
  destruct c; cbn [apply_edit] in H.
  - destruct (YES _ _ _ (set_probabilities_char e v M) H) as [[_ U] ->].
    { destruct (SD (sig v) (sig (probabilities (ed_state e)))), (FD _ ID (a_data v)); tauto. }
    split; auto. cbn [ed_state probabilities]. intros i p Hp. apply in_unit_iff. eapply nth_Forall; eauto.
  - destruct (YES _ _ _ (set_residuals_char e v M) H) as [[_ U] ->].
    { destruct (SD (sig v) (sig (residuals (ed_state e)))), (FD _ ID (a_data v)); tauto. }
    split; auto. cbn [ed_state residuals]. intros i p Hp. apply in_unit_iff. eapply nth_Forall; eauto.
  - destruct (YES _ _ _ (set_iterations_char e v M) H) as [[_ U] ->].
    { destruct (SD (sig v) (sig (iterations (ed_state e)))), (FD _ LD (a_data v)); tauto. }
    split; auto. cbn [ed_state iterations]. intros i p Hp. apply Qcleb_le. exact (nth_Forall _ _ _ _ U Hp).
  - destruct (YES _ _ _ (set_epsilon_char e x M) H) as [[U1 U2] ->].
    { destruct (s_leb QcNum (s_zero QcNum) x), (s_leb QcNum x (s_one QcNum)); [left|right|right|right]; intuition congruence. }
    split; auto. cbn [ed_state epsilon]. split; apply Qcleb_le; assumption.
  - destruct (like_checks (ed_state e) name v) as (bs & _ & B).
    destruct (YES _ _ _ (set_accumulator_char e name v M) H) as [_ ->].
    { destruct (forallb (fun b => b) bs) eqn:Eb; [left; now apply B|right; rewrite <- B; congruence]. }
    split; auto.
  - destruct (like_checks (ed_state e) name v) as (bs & _ & B).
    destruct (YES _ _ _ (set_defaults_char e name v M) H) as [_ ->].
    { destruct (forallb (fun b => b) bs) eqn:Eb; [left; now apply B|right; rewrite <- B; congruence]. }
    split; auto.
  - rewrite (set_updates_char e name v M) in H. destruct (dget name (defaults (ed_state e))) as [d|] eqn:D';
      [|destruct (is_none v); discriminate]. destruct (_ || _) in H; [|discriminate]. injection H as <-.
    split; auto.
Qed.

Theorem session_range (s0 s : stq) acts :
  wf s -> wf_pending s -> same_kind s0 s -> in_range s -> Forall action_wf acts -> Forall (action_none_safe s0) acts ->
  in_range (session m_standard s acts).
Proof.
  revert s. induction acts as [|a acts IH]; intros s W P K R Wa Sa; [exact R|].
  apply Forall_cons_iff in Wa as [Wa Wr]. apply Forall_cons_iff in Sa as [Sa Sr].
  assert (Sa' : action_none_safe s a) by (destruct a; cbn in *; auto; eapply none_safe_kind; eauto).
  change (session m_standard s (a :: acts)) with (session m_standard (act_on m_standard s a) acts).
  unfold act_on. destruct (apply_action m_standard s a) as [s'|x] eqn:E; [|now apply IH].
  destruct (action_kind s s' a W P Wa Sa' E) as (W' & P' & K'). apply IH; auto; [eapply same_kind_trans; eauto|].
  destruct a as [c|c]; cbn [apply_action action_wf] in *; [exact (call_range s s' c W P Wa R E)|].
  unfold edit_controller in E. change (existsb (String.eqb m_standard) error_modes) with true in E. cbn [guard bind] in E.
  apply bind_ok in E as (e' & E & E'). injection E' as <-. exact (edit_range (mkEd s m_standard) e' c eq_refl R E).
Qed.
