(** * Sequences of edits: proofs. *)
From Coq Require Import Lia.
From Coq Require Import Sorting.Permutation.
From Verif Require Import Base PyTree Tensor Num Utils States Controller Editor Wf UtilsSpec EditorSpec EditSpec.
From Verif Require Import BaseFacts PyTreeFacts TensorFacts UtilsFacts ControllerFacts EditorFacts.
Open Scope list_scope. Open Scope nat_scope.

Lemma nodup_app {A} (l l' : list A) : NoDup l -> NoDup l' -> (forall x, In x l -> In x l' -> False) -> NoDup (l ++ l').
Proof.
  intros H H' D. induction H as [|x l Hx _ IH]; [exact H'|]. cbn [app]. constructor.
  - rewrite in_app_iff. intros [X|X]; [auto|]. apply (D x); [now left|exact X].
  - apply IH. intros y Hy. apply D. now right.
Qed.

Section EditFacts.
  Context {N : numsys}.
  Notation st := (state N).
  Notation tr := (tree (array N)).

  (** The state with the value put in, whatever the checks say. *)
  Definition put (s : st) (c : edit N) : st :=
    match c with
    | EProbabilities v => mkState (epsilon s) (iterations s) (residuals s) v (defaults s) (accumulators s) (updates s) (depression_constant s) (error_mode s)
    | EResiduals v => mkState (epsilon s) (iterations s) v (probabilities s) (defaults s) (accumulators s) (updates s) (depression_constant s) (error_mode s)
    | EIterations v => mkState (epsilon s) v (residuals s) (probabilities s) (defaults s) (accumulators s) (updates s) (depression_constant s) (error_mode s)
    | EEpsilon x => mkState x (iterations s) (residuals s) (probabilities s) (defaults s) (accumulators s) (updates s) (depression_constant s) (error_mode s)
    | EAccumulator k v => mkState (epsilon s) (iterations s) (residuals s) (probabilities s) (defaults s) (dset k v (accumulators s)) (updates s) (depression_constant s) (error_mode s)
    | EDefaults k v => mkState (epsilon s) (iterations s) (residuals s) (probabilities s) (dset k v (defaults s)) (accumulators s) (updates s) (depression_constant s) (error_mode s)
    | EUpdates k v => mkState (epsilon s) (iterations s) (residuals s) (probabilities s) (defaults s) (accumulators s) (dset k v (updates s)) (depression_constant s) (error_mode s)
    end.
  (** The checks of a setter. *)
  Definition checks_of (s : st) (c : edit N) : res (list bool) :=
    match c with
    | EProbabilities v => Ok (check_same_shape (probabilities s) v :: check_same_dtype (probabilities s) v :: checks_probability v)
    | EResiduals v => Ok (check_same_shape (residuals s) v :: check_same_dtype (residuals s) v :: checks_probability v)
    | EIterations v => Ok [check_same_shape (iterations s) v; check_same_dtype (iterations s) v; check_natural v]
    | EEpsilon x => Ok [s_leb N (s_zero N) x; s_leb N x (s_one N)]
    | EAccumulator k v | EDefaults k v => checks_like_accumulator s k v
    | EUpdates k v => checks_updates s k v
    end.
  Lemma apply_split e c : apply_edit e c = (_ <- execute_checks e (checks_of (ed_state e) c) ;; Ok (mkEd (put (ed_state e) c) (ed_mode e))).
  Proof. destruct c; reflexivity. Qed.

  Lemma leaves_sig (t t' v : tr) : map sig (leaves t') = map sig (leaves t) -> checks_leaves t' v = checks_leaves t v.
  Proof.
    unfold checks_leaves. generalize (leaves t) (leaves t') (leaves v). clear.
    induction l as [|a l IH]; intros [|a' l'] lv E; try discriminate; [reflexivity|]. injection E as E1 E2 E3.
    destruct lv as [|b lv]; [reflexivity|]. cbn [map2 concat]. rewrite (IH l' lv E3). unfold check_same_shape, check_same_dtype.
    now rewrite E1, E2.
  Qed.
  Lemma alike_checks (t t' v : tr) : alike t' t ->
    check_structure t' v = check_structure t v /\ checks_leaves t' v = checks_leaves t v.
  Proof.
    intros [S L]. split; [|now apply leaves_sig]. unfold check_structure, are_pytree_structure_equal.
    now rewrite (structure_none_out t' t S).
  Qed.
  Lemma keys_get {V} (d d' : dict V) k : dkeys d' = dkeys d ->
    match dget k d, dget k d' with Some _, Some _ | None, None => True | _, _ => False end.
  Proof.
    intros E. destruct (dget k d) as [x|] eqn:A, (dget k d') as [y|] eqn:B; try exact I.
    - apply dget_none in B. apply B. rewrite E. apply dget_keys. eauto.
    - apply dget_none in A. apply A. rewrite <- E. apply dget_keys. eauto.
  Qed.
  Lemma kind_mem (s s' : st) k : same_kind s s' -> dmem k (defaults s') = dmem k (defaults s).
  Proof.
    intros K. unfold dmem. assert (X := keys_get (defaults s) (defaults s') k (sk_keys_d _ _ K)).
    destruct (dget k (defaults s)), (dget k (defaults s')); tauto.
  Qed.
  (** Checks only look at kinds. *)
  Lemma checks_kind (s s' : st) c : same_kind s s' -> checks_of s' c = checks_of s c.
  Proof.
    intros K. assert (L : forall k v, checks_like_accumulator s' k v = checks_like_accumulator s k v).
    { intros k v. unfold checks_like_accumulator, check_exists. rewrite (kind_mem s s' k K). unfold dmem, dlookup.
      assert (X := keys_get (accumulators s) (accumulators s') k (sk_keys _ _ K)).
      destruct (dget k (accumulators s)) as [t|] eqn:A, (dget k (accumulators s')) as [t'|] eqn:B; try contradiction; [|reflexivity].
      cbn [bind]. destruct (alike_checks t t' v (sk_acc _ _ K _ _ _ A B)) as [-> ->]. reflexivity. }
    destruct c; cbn [checks_of]; auto.
    - unfold check_same_shape, check_same_dtype. destruct K as [E]. unfold sig in E. now injection E as -> ->.
    - unfold check_same_shape, check_same_dtype. destruct K as [_ E]. unfold sig in E. now injection E as -> ->.
    - unfold check_same_shape, check_same_dtype. destruct K as [_ _ E]. unfold sig in E. now injection E as -> ->.
    - unfold checks_updates, check_exists. rewrite (kind_mem s s' name K). unfold dlookup.
      assert (X := keys_get (defaults s) (defaults s') name (sk_keys_d _ _ K)).
      destruct (dget name (defaults s)) as [t|] eqn:A, (dget name (defaults s')) as [t'|] eqn:B; try contradiction; [|reflexivity].
      cbn [bind]. destruct (alike_checks t t' v (sk_def _ _ K _ _ _ A B)) as [-> ->]. reflexivity.
  Qed.

  (** Acceptance as a function of the kind. *)
  Definition verdict (s : st) (mode : string) (c : edit N) : res unit := execute_checks (mkEd s mode) (checks_of s c).
  Lemma verdict_kind (s s' : st) mode c : same_kind s s' -> verdict s' mode c = verdict s mode c.
  Proof. intros K. unfold verdict. rewrite (checks_kind s s' c K). reflexivity. Qed.
  Lemma apply_verdict s mode c : apply_edit (mkEd s mode) c =
    match verdict s mode c with Ok _ => Ok (mkEd (put s c) mode) | Err x => Err x end.
  Proof. rewrite apply_split. cbn [ed_state ed_mode]. fold (verdict s mode c). now destruct (verdict s mode c). Qed.
  Lemma after_verdict s mode c : after_edit (mkEd s mode) c =
    mkEd (match verdict s mode c with Ok _ => put s c | Err _ => s end) mode.
  Proof. unfold after_edit. rewrite apply_verdict. now destruct (verdict s mode c). Qed.
  Lemma accepted_verdict s mode c : accepted (mkEd s mode) c <-> verdict s mode c = Ok tt.
  Proof.
    unfold accepted. rewrite apply_verdict. destruct (verdict s mode c) as [[]|x]; split; intros H; eauto; try discriminate.
    destruct H as [e' H]. discriminate.
  Qed.
  Lemma raised_verdict s mode c : raised (mkEd s mode) c = match verdict s mode c with Ok _ => None | Err x => Some x end.
  Proof. unfold raised. rewrite apply_verdict. now destruct (verdict s mode c). Qed.

  (** ** One edit *)
  Definition good (s : st) : Prop := wf s /\ wf_pending s.
  Definition fair (s : st) (c : edit N) : Prop := edit_wf c /\ edit_none_safe s c.
  Lemma after_good s c : good s -> fair s c ->
    exists s', after_edit (mkEd s m_standard) c = mkEd s' m_standard /\ good s' /\ same_kind s s'.
  Proof.
    intros [W P] [A B]. unfold after_edit. destruct (apply_edit (mkEd s m_standard) c) as [e'|x] eqn:E.
    - destruct (edit_kind (mkEd s m_standard) c e' W P eq_refl A B E) as (W' & P' & K).
      assert (M := edit_mode _ _ _ E). destruct e' as [s' m]. cbn in M, W', P', K. subst m. exists s'. exact (conj eq_refl (conj (conj W' P') K)).
    - exists s. exact (conj eq_refl (conj (conj W P) (same_kind_refl s))).
  Qed.
  Lemma fair_kind s s' c : same_kind s s' -> fair s c -> fair s' c.
  Proof. intros K [A B]. split; [exact A|]. eapply none_safe_kind; eauto. Qed.
  Lemma editing_good s cs : good s -> Forall (fair s) cs ->
    exists s', editing (mkEd s m_standard) cs = mkEd s' m_standard /\ good s' /\ same_kind s s'.
  Proof.
    revert s. induction cs as [|c cs IH]; intros s G F.
    - exists s. exact (conj eq_refl (conj G (same_kind_refl s))).
    - apply Forall_cons_iff in F as [F1 F2]. cbn [editing fold_left].
      destruct (after_good s c G F1) as (s1 & -> & G1 & K1).
      destruct (IH s1 G1) as (s2 & E & G2 & K2).
      { eapply Forall_impl; [|exact F2]. intros c' H. eapply fair_kind; eauto. }
      exists s2. split; [exact E|]. split; [exact G2|]. eapply same_kind_trans; eauto.
  Qed.
  (** The verdict on an edit does not depend on the edits before. *)
  Theorem editing_raised (s : st) cs c : good s -> Forall (fair s) cs ->
    raised (editing (mkEd s m_standard) cs) c = raised (mkEd s m_standard) c.
  Proof.
    intros G F. destruct (editing_good s cs G F) as (s' & -> & _ & K). rewrite !raised_verdict. now rewrite (verdict_kind s s').
  Qed.

  Lemma put_holds s c : holds (put s c) c.
  Proof. destruct c; cbn; auto; now rewrite dget_dset_eq. Qed.
  Lemma put_same s c t : target_of c <> t -> same_at t s (put s c).
  Proof.
    destruct c, t; cbn; intros H; try reflexivity; try congruence;
      (rewrite dget_dset_neq; [reflexivity|congruence]).
  Qed.
  Lemma same_holds (s s' : st) c : same_at (target_of c) s s' -> holds s c -> holds s' c.
  Proof. destruct c; cbn; congruence. Qed.
  Lemma same_trans t (s1 s2 s3 : st) : same_at t s1 s2 -> same_at t s2 s3 -> same_at t s1 s3.
  Proof. destruct t; cbn; congruence. Qed.
  Lemma same_refl t (s : st) : same_at t s s.
  Proof. destruct t; reflexivity. Qed.
  Lemma after_same (s : st) c t : (target_of c = t -> ~ accepted (mkEd s m_standard) c) ->
    same_at t s (ed_state (after_edit (mkEd s m_standard) c)).
  Proof.
    intros H. rewrite after_verdict. cbn [ed_state]. destruct (verdict s m_standard c) as [[]|x] eqn:V; [|apply same_refl].
    apply put_same. intros E. apply (H E). now apply accepted_verdict.
  Qed.
  Theorem editing_same (s : st) cs t : good s -> Forall (fair s) cs ->
    Forall (fun c => target_of c = t -> ~ accepted (mkEd s m_standard) c) cs ->
    same_at t s (ed_state (editing (mkEd s m_standard) cs)).
  Proof.
    revert s. induction cs as [|c cs IH]; intros s G F H; [apply same_refl|].
    apply Forall_cons_iff in F as [F1 F2]. apply Forall_cons_iff in H as [H1 H2]. cbn [editing fold_left].
    assert (S1 := after_same s c t H1). destruct (after_good s c G F1) as (s1 & E & G1 & K1). rewrite E in *. cbn [ed_state] in S1.
    eapply same_trans; [exact S1|]. apply IH; auto.
    - eapply Forall_impl; [|exact F2]. intros c' X. eapply fair_kind; eauto.
    - eapply Forall_impl; [|exact H2]. cbv beta. intros c' X T A. apply (X T). apply accepted_verdict. apply accepted_verdict in A.
      now rewrite (verdict_kind s s1) in A.
  Qed.
  Lemma editing_app (e : editor N) cs cs' : editing e (cs ++ cs') = editing (editing e cs) cs'.
  Proof. apply fold_left_app. Qed.
  Theorem editing_holds (s : st) cs1 c cs2 : good s -> Forall (fair s) (cs1 ++ c :: cs2) ->
    accepted (mkEd s m_standard) c ->
    Forall (fun c' => target_of c' = target_of c -> ~ accepted (mkEd s m_standard) c') cs2 ->
    holds (ed_state (editing (mkEd s m_standard) (cs1 ++ c :: cs2))) c.
  Proof.
    intros G F A H. apply Forall_app in F as [F1 F2]. apply Forall_cons_iff in F2 as [F2 F3]. rewrite editing_app.
    destruct (editing_good s cs1 G F1) as (s1 & -> & G1 & K1). cbn [editing fold_left].
    destruct (after_good s1 c G1 (fair_kind _ _ _ K1 F2)) as (s2 & E & G2 & K2).
    assert (Hc : holds s2 c).
    { rewrite after_verdict in E. apply accepted_verdict in A. rewrite <- (verdict_kind s s1) in A by exact K1. rewrite A in E.
      injection E as <-. apply put_holds. }
    rewrite E. assert (K : same_kind s s2) by (eapply same_kind_trans; eauto).
    eapply same_holds; [|exact Hc]. apply editing_same; auto.
    - eapply Forall_impl; [|exact F3]. intros c' X. eapply fair_kind; eauto.
    - eapply Forall_impl; [|exact H]. cbv beta. intros c' X T B. apply (X T). apply accepted_verdict. apply accepted_verdict in B.
      now rewrite (verdict_kind s s2) in B.
  Qed.

  (** ** States are determined by what can be read *)
  Lemma state_ext (s s' : st) : good s -> same_kind s s' -> (forall t, same_at t s s') -> s' = s.
  Proof.
    intros [W _] K H. assert (D : forall (f : st -> dict tr), dkeys (f s') = dkeys (f s) -> NoDup (dkeys (f s)) ->
      (forall k, dget k (f s') = dget k (f s)) -> f s' = f s).
    { intros f E ND G. apply dict_ext; auto. now rewrite E. }
    assert (A := D accumulators (sk_keys _ _ K) (wf_nodup_a _ W) (fun k => H (TAccumulator k))).
    assert (B := D defaults (sk_keys_d _ _ K) (wf_nodup_d _ W) (fun k => H (TDefaults k))).
    assert (C := D updates (sk_keys_u _ _ K) (wf_nodup_u _ W) (fun k => H (TUpdates k))).
    assert (P := H TProbabilities). assert (R := H TResiduals). assert (I := H TIterations). assert (E := H TEpsilon).
    cbn in P, R, I, E. assert (X := sk_dep _ _ K). assert (Y := sk_mode _ _ K).
    destruct s, s'; cbn in *; congruence.
  Qed.
  Lemma target_eq_dec (t t' : target) : {t = t'} + {t <> t'}.
  Proof. decide equality; apply string_dec. Defined.

  (** Neighbouring edits of different things can be exchanged. *)
  Lemma put_swap (s : st) a b : good s -> same_kind s (put s a) -> same_kind s (put s b) -> target_of a <> target_of b ->
    put (put s a) b = put (put s b) a.
  Proof.
    intros [W _] Ka Kb T.
    destruct a, b; cbn [put epsilon iterations residuals probabilities defaults accumulators updates depression_constant error_mode]; try reflexivity;
      cbn [target_of] in T; try congruence; f_equal.
    - assert (In name (dkeys (accumulators s))).
      { assert (X := sk_keys _ _ Ka). cbn in X. rewrite <- X. apply dget_keys. rewrite dget_dset_eq. eauto. }
      assert (In name0 (dkeys (accumulators s))).
      { assert (X := sk_keys _ _ Kb). cbn in X. rewrite <- X. apply dget_keys. rewrite dget_dset_eq. eauto. }
      apply dict_ext; rewrite ?dkeys_dset_in; rewrite ?dkeys_dset_in; auto; try apply W.
      intros k. rewrite !dget_dset. destruct (String.eqb_spec k name0), (String.eqb_spec k name); subst; try reflexivity. now destruct T.
    - assert (In name (dkeys (defaults s))).
      { assert (X := sk_keys_d _ _ Ka). cbn in X. rewrite <- X. apply dget_keys. rewrite dget_dset_eq. eauto. }
      assert (In name0 (dkeys (defaults s))).
      { assert (X := sk_keys_d _ _ Kb). cbn in X. rewrite <- X. apply dget_keys. rewrite dget_dset_eq. eauto. }
      apply dict_ext; rewrite ?dkeys_dset_in; rewrite ?dkeys_dset_in; auto; try apply W.
      intros k. rewrite !dget_dset. destruct (String.eqb_spec k name0), (String.eqb_spec k name); subst; try reflexivity. now destruct T.
    - assert (In name (dkeys (updates s))).
      { assert (X := sk_keys_u _ _ Ka). cbn in X. rewrite <- X. apply dget_keys. rewrite dget_dset_eq. eauto. }
      assert (In name0 (dkeys (updates s))).
      { assert (X := sk_keys_u _ _ Kb). cbn in X. rewrite <- X. apply dget_keys. rewrite dget_dset_eq. eauto. }
      apply dict_ext; rewrite ?dkeys_dset_in; rewrite ?dkeys_dset_in; auto; try apply W.
      intros k. rewrite !dget_dset. destruct (String.eqb_spec k name0), (String.eqb_spec k name); subst; try reflexivity. now destruct T.
  Qed.
  Lemma after_swap (s : st) a b : good s -> fair s a -> fair s b -> target_of a <> target_of b ->
    after_edit (after_edit (mkEd s m_standard) a) b = after_edit (after_edit (mkEd s m_standard) b) a.
  Proof.
    intros G Fa Fb T. destruct (after_good s a G Fa) as (sa & Ea & _ & Ka). destruct (after_good s b G Fb) as (sb & Eb & _ & Kb).
    rewrite Ea, Eb, !after_verdict. rewrite (verdict_kind s sa _ b Ka), (verdict_kind s sb _ a Kb).
    rewrite after_verdict in Ea, Eb. injection Ea as Ea. injection Eb as Eb.
    destruct (verdict s m_standard a), (verdict s m_standard b); subst sa sb; try reflexivity. f_equal. now apply put_swap.
  Qed.
  Theorem editing_swap (s : st) cs1 a b cs2 : good s -> Forall (fair s) (cs1 ++ a :: b :: cs2) -> target_of a <> target_of b ->
    editing (mkEd s m_standard) (cs1 ++ a :: b :: cs2) = editing (mkEd s m_standard) (cs1 ++ b :: a :: cs2).
  Proof.
    intros G F T. apply Forall_app in F as [F1 F2]. apply Forall_cons_iff in F2 as [Fa F2]. apply Forall_cons_iff in F2 as [Fb _].
    rewrite !editing_app. destruct (editing_good s cs1 G F1) as (s1 & -> & G1 & K1). cbn [editing fold_left].
    rewrite (after_swap s1 a b); auto; eapply fair_kind; eauto.
  Qed.
  (** Setting what is there already. *)
  Theorem rewriting (e : editor N) c : wf (ed_state e) -> holds (ed_state e) c -> after_edit e c = e.
  Proof.
    intros W H. destruct e as [s m]. cbn [ed_state] in *. rewrite after_verdict. f_equal. destruct (verdict s m c); [|reflexivity].
    destruct c; cbn [holds put] in *; subst; destruct s; try reflexivity; cbn in *; f_equal.
    all: apply dset_same_get; auto; apply W.
  Qed.

  (** ** Restoring *)
  Lemma checkpoint_targets (s : st) : good s -> NoDup (map target_of (checkpoint s)).
  Proof.
    intros [W _]. unfold checkpoint. rewrite !map_app, !map_map. cbn [target_of fst map app].
    assert (A : forall (f : string -> target) (d : dict tr), (forall x y, f x = f y -> x = y) -> NoDup (dkeys d) ->
      NoDup (map (fun kv => f (fst kv)) d)).
    { intros f d I ND. unfold dkeys in ND. rewrite <- (map_map fst f). now apply FinFun.Injective_map_NoDup. }
    assert (X1 := A TAccumulator (accumulators s) (fun x y H => f_equal (fun t => match t with TAccumulator n => n | _ => x end) H) (wf_nodup_a _ W)).
    assert (X2 := A TDefaults (defaults s) (fun x y H => f_equal (fun t => match t with TDefaults n => n | _ => x end) H) (wf_nodup_d _ W)).
    assert (X3 := A TUpdates (updates s) (fun x y H => f_equal (fun t => match t with TUpdates n => n | _ => x end) H) (wf_nodup_u _ W)).
    repeat (apply NoDup_cons; [cbn [In]; rewrite !in_app_iff, !in_map_iff; intros H;
      repeat match goal with H : _ \/ _ |- _ => destruct H as [H|H] | H : exists _, _ |- _ => destruct H as (? & H & _) end; discriminate|]).
    apply nodup_app; auto. { apply nodup_app; auto. intros x Hx Hy. apply in_map_iff in Hx as (? & <- & _). apply in_map_iff in Hy as (? & Hy & _). discriminate. }
    intros x Hx Hy. apply in_app_iff in Hy. apply in_map_iff in Hx as (? & <- & _). destruct Hy as [Hy|Hy]; apply in_map_iff in Hy as (? & Hy & _); discriminate.
  Qed.
  Lemma same_kind_sym (s s' : st) : same_kind s s' -> same_kind s' s.
  Proof. intros [a b c d e f g h i j]. split; auto; intros k t t' H1 H2; apply alike_sym; eauto. Qed.
  Lemma checkpoint_holds (s : st) c : good s -> In c (checkpoint s) -> holds s c.
  Proof.
    intros [W _] H. unfold checkpoint in H. rewrite !in_app_iff, !in_map_iff in H.
    destruct H as [[<-|[<-|[<-|[<-|[]]]]]|[([k v] & <- & H)|[([k v] & <- & H)|([k v] & <- & H)]]]; cbn; auto; apply dget_nodup; auto; apply W.
  Qed.
  Lemma checkpoint_fair (s s' : st) c : good s -> good s' -> same_kind s s' -> In c (checkpoint s') -> fair s c.
  Proof.
    intros [W P] [W' P'] K H. assert (Hc := checkpoint_holds s' c (conj W' P') H).
    assert (A : forall name v, (exists t', dget name (accumulators s') = Some t' /\ alike v t') ->
      forall t, dget name (accumulators s) = Some t -> none_safe t v).
    { intros name v (t' & Ht' & Al) t Ht _. destruct (sk_acc _ _ K _ _ _ Ht Ht') as [E _]. destruct Al as [E' _]. congruence. }
    destruct c; cbn [holds] in Hc; split; cbn [edit_wf edit_none_safe]; auto; subst; try apply W'.
    - assert (F := wf_acc _ W' _ _ Hc). eapply Forall_impl; [|exact F]. intros a [X _]. exact X.
    - apply A. exists v. split; [exact Hc|]. split; reflexivity.
    - destruct (proj1 (dget_keys name (accumulators s'))) as [t' Ht']. { apply (wf_keys_d _ W'). apply dget_keys. eauto. }
      apply (wf_def _ W' _ _ _ Ht' Hc).
    - apply A. destruct (proj1 (dget_keys name (accumulators s'))) as [t' Ht']. { apply (wf_keys_d _ W'). apply dget_keys. eauto. }
      exists t'. split; [exact Ht'|]. apply alike_sym. apply (wf_def _ W' _ _ _ Ht' Hc).
    - eapply P'; eauto.
  Qed.
  Lemma alike_same_up_to_none (t v : tr) : structure t = structure v -> same_up_to_none t v.
  Proof.
    intros E. apply structure_equal_iff. unfold are_pytree_structure_equal. apply td_eqb_eq.
    apply structure_none_out. exact E.
  Qed.
  Lemma like_alike (s : st) name t v : In name (dkeys (defaults s)) -> dget name (accumulators s) = Some t -> alike v t ->
    like_accumulator s name v.
  Proof.
    intros I Ht [E L]. split; [exact I|]. intros t' Ht'. assert (X : Some t = Some t') by congruence. injection X as <-.
    split; [now apply alike_same_up_to_none|]. apply (alike_zipped t v); [congruence|]. split; auto.
  Qed.
  Lemma checkpoint_accepted (s : st) c : good s -> restorable s -> In c (checkpoint s) -> accepted (mkEd s m_standard) c.
  Proof.
    intros [W P] R H. assert (Hc := checkpoint_holds s c (conj W P) H).
    assert (D : forall Q r e', decides Q r e' -> Q -> exists e1 : editor N, r = Ok e1) by (intros Q r e' [D _] HQ; eauto).
    destruct c; cbn [holds] in Hc; subst; unfold accepted; cbn [apply_edit].
    - eapply D; [now apply set_probabilities_char|]. split; [reflexivity|]. apply R.
    - eapply D; [now apply set_residuals_char|]. split; [reflexivity|]. apply R.
    - eapply D; [now apply set_iterations_char|]. split; [reflexivity|]. apply R.
    - eapply D; [now apply set_epsilon_char|]. apply R.
    - eapply D; [now apply set_accumulator_char|]. cbn [ed_state]. apply like_alike with (t := v); auto; [|split; reflexivity].
      apply (wf_keys_d _ W). apply dget_keys. eauto.
    - eapply D; [now apply set_defaults_char|]. cbn [ed_state].
      assert (I : In name (dkeys (defaults s))) by (apply dget_keys; eauto).
      destruct (proj1 (dget_keys name (accumulators s))) as [t Ht]. { now apply (wf_keys_d _ W). }
      apply like_alike with (t := t); auto. apply alike_sym. apply (wf_def _ W _ _ _ Ht Hc).
    - rewrite set_updates_char by reflexivity. cbn [ed_state].
      assert (I : In name (dkeys (defaults s))). { apply (wf_keys_d _ W). apply (wf_keys_u _ W). apply dget_keys. eauto. }
      apply dget_keys in I as [d Hd]. rewrite Hd. destruct (rb_u _ R _ _ _ Hc Hd) as [->|[E L]]; [cbn; eauto|].
      assert (X : are_pytree_structure_equal d v = true) by (apply structure_equal_iff; now apply alike_same_up_to_none).
      assert (Y : forallb (fun b => b) (checks_leaves d v) = true).
      { apply leaves_checks. apply (alike_zipped d v); [congruence|]. split; auto. }
      rewrite X, Y, orb_true_r. eauto.
  Qed.
  Lemma same_from_holds (s s' : st) c : holds s c -> holds s' c -> same_at (target_of c) s s'.
  Proof. destruct c; cbn; congruence. Qed.
  Theorem restored (s s' : st) cs : good s -> good s' -> same_kind s s' -> restorable s' -> Permutation cs (checkpoint s') ->
    editing (mkEd s m_standard) cs = mkEd s' m_standard.
  Proof.
    intros G G' K R Pm.
    assert (F : Forall (fair s) cs).
    { apply Forall_forall. intros c Hc. eapply checkpoint_fair; eauto. eapply Permutation_in; eauto. }
    destruct (editing_good s cs G F) as (s1 & E & G1 & K1). rewrite E. f_equal. apply state_ext; auto.
    { eapply same_kind_trans; [apply same_kind_sym; exact K|exact K1]. }
    assert (ND : NoDup (map target_of cs)).
    { eapply Permutation_NoDup; [|apply checkpoint_targets; exact G']. apply Permutation_map. now apply Permutation_sym. }
    assert (X : forall c, In c (checkpoint s') -> same_at (target_of c) s' s1).
    { intros c Hc. apply same_from_holds; [now apply checkpoint_holds|].
      assert (Hi : In c cs) by (eapply Permutation_in; [apply Permutation_sym; exact Pm|exact Hc]).
      apply in_split in Hi as (c1 & c2 & Ec). assert (Y : holds (ed_state (editing (mkEd s m_standard) cs)) c).
      { rewrite Ec. apply editing_holds; auto; [now rewrite <- Ec| |].
        - apply accepted_verdict. rewrite <- (verdict_kind s s') by exact K. apply accepted_verdict. now apply checkpoint_accepted.
        - rewrite Ec, map_app in ND. cbn [map] in ND. apply NoDup_remove_2 in ND. apply Forall_forall. intros c' Hc' T. exfalso. apply ND.
          apply in_or_app. right. rewrite <- T. now apply in_map. }
      now rewrite E in Y. }
    assert (O : forall (f : st -> dict tr) k, dkeys (f s1) = dkeys (f s') ->
      (forall v, dget k (f s') = Some v -> dget k (f s1) = dget k (f s')) -> dget k (f s1) = dget k (f s')).
    { intros f k Ek H. destruct (dget k (f s')) as [v|] eqn:D; [exact (H v eq_refl)|]. apply dget_none. rewrite Ek. now apply dget_none. }
    intros t. unfold checkpoint in X. setoid_rewrite in_app_iff in X. setoid_rewrite in_app_iff in X. setoid_rewrite in_app_iff in X.
    setoid_rewrite in_map_iff in X.
    destruct t.
    - apply (X (EProbabilities (probabilities s'))). cbn. tauto.
    - apply (X (EResiduals (residuals s'))). cbn. tauto.
    - apply (X (EIterations (iterations s'))). cbn. tauto.
    - apply (X (EEpsilon (epsilon s'))). cbn. tauto.
    - cbn [same_at]. apply O; [rewrite (sk_keys _ _ K1), (sk_keys _ _ K); reflexivity|]. intros v Hv.
      apply (X (EAccumulator name v)). right. left. exists (name, v). split; [reflexivity|]. now apply dget_In.
    - cbn [same_at]. apply O; [rewrite (sk_keys_d _ _ K1), (sk_keys_d _ _ K); reflexivity|]. intros v Hv.
      apply (X (EDefaults name v)). right. right. left. exists (name, v). split; [reflexivity|]. now apply dget_In.
    - cbn [same_at]. apply O; [rewrite (sk_keys_u _ _ K1), (sk_keys_u _ _ K); reflexivity|]. intros v Hv.
      apply (X (EUpdates name v)). right. right. right. exists (name, v). split; [reflexivity|]. now apply dget_In.
  Qed.
End EditFacts.
