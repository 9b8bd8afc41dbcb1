(** * Facts for C85: the builder and the controller; the outcomes without the texts *)
From Coq Require Import Ascii Lia.
From Verif Require Import Base BaseFacts PyTree Tensor TensorFacts Num Utils UtilsFacts States Controller ControllerFacts Builder Editor Checkify Wf UtilsSpec EditorSpec IterateFacts.
From Verif Require Import Text TextSpec TextFacts PyStr Messages MessagesSpec MessagesFacts MessagesFacts2 PropsCheckify.
Open Scope string_scope. Open Scope list_scope.

Section Without.
  Context {N : numsys} (str_scl : scl N -> string).
  Notation st := (state N).
  Notation tr := (tree (array N)).

  Lemma without_obind {A B} (o : outcome A) (f : A -> outcome B) : without_text (obind o f) = bind (without_text o) (fun a => without_text (f a)).
  Proof. destruct o; reflexivity. Qed.
  Lemma without_silent {A} (r : res A) : without_text (silent r) = r.
  Proof. destruct r; reflexivity. Qed.
  Lemma without_complain b e t : without_text (complain b e t) = guard b e.
  Proof. destruct b; reflexivity. Qed.
  Lemma without_execute (e : editor N) p : without_text (m_execute e p) = execute_checks e (checks_of p).
  Proof. rewrite <- C81_editor_validation. unfold m_execute, m_standard. destruct (execute_validation_program _ p) as [[]|err|m]; reflexivity. Qed.
  Lemma bind_ext {A B} (r : res A) (f g : A -> res B) : (forall a, f a = g a) -> bind r f = bind r g.
  Proof. intros H. destruct r; [apply H|reflexivity]. Qed.
  Lemma checks_of_leaves info rest : forall (os ns : list (array N)) i,
    checks_of (m_leaves i os ns info rest) = (bs <- checks_of rest ;; Ok (concat (map2 (fun o n => [check_same_shape o n; check_same_dtype o n]) os ns) ++ bs)).
  Proof.
    induction os as [|o os IH]; intros [|n ns] i; try (cbn; destruct (checks_of rest); reflexivity).
    cbn [m_leaves checks_of]. rewrite IH. destruct (checks_of rest); reflexivity.
  Qed.
  Lemma checks_of_tree (s : st) name ctx (o n : tr) :
    checks_of (m_exists s name ctx (m_structure o n ctx (m_leaves 0 (leaves o) (leaves n) ctx (Return tt)))) =
    Ok (check_exists s name :: check_structure o n :: checks_leaves o n).
  Proof. cbn [m_exists m_structure checks_of]. rewrite checks_of_leaves. cbn. now rewrite app_nil_r. Qed.
  Lemma edit_without (e : editor N) c : without_text (edit_aloud str_scl e c) = apply_edit e c.
  Proof.
    destruct c; cbn [edit_aloud apply_edit].
    all: unfold m_set_probabilities, m_set_residuals, m_set_iterations, m_set_epsilon, m_set_accumulator, m_set_defaults, m_set_updates,
      set_probabilities, set_residuals, set_iterations, set_epsilon, set_accumulator, set_defaults, set_updates; cbv zeta.
    all: rewrite without_obind, without_execute; f_equal; try reflexivity.
    - f_equal. unfold m_like_accumulator, checks_like_accumulator. destruct (dmem _ _); [|reflexivity]. destruct (dlookup _ _) as [t|err]; [|reflexivity].
      apply checks_of_tree.
    - f_equal. unfold m_like_accumulator, checks_like_accumulator. destruct (dmem _ _); [|reflexivity]. destruct (dlookup _ _) as [t|err]; [|reflexivity].
      apply checks_of_tree.
    - f_equal. unfold checks_updates. destruct (is_none v); [reflexivity|]. destruct (dlookup _ _) as [t|err]; [|reflexivity].
      apply checks_of_tree.
  Qed.
  Lemma validate_without b ctx : forall (ls : list (array N)) i,
    without_text (m_validate_leaves b i ls ctx) = (_ <- mapM (validate_leaf b) ls ;; Ok tt).
  Proof.
    induction ls as [|a ls IH]; intros i; [reflexivity|]. cbn [m_validate_leaves mapM]. unfold validate_leaf at 1.
    rewrite without_obind, without_complain. destruct (guard (is_floating _) _); [|reflexivity]. cbn [bind].
    rewrite without_obind, without_complain. destruct (guard _ _); [|reflexivity]. cbn [bind].
    rewrite without_obind, without_complain. destruct (guard _ _); [|reflexivity]. cbn [bind]. rewrite IH. destruct (mapM _ ls); reflexivity.
  Qed.
  Lemma define_without (s : st) name t ctx : without_text (m_define s name t ctx) = define s name t.
  Proof.
    unfold m_define, define, validate_definition. rewrite without_obind, validate_without. apply bind_ext. intros []. apply without_silent.
  Qed.
  Lemma define_by_shape_without (s : st) name shapes d fill : without_text (m_define_by_shape s name shapes d fill) = define_by_shape s name shapes d fill.
  Proof.
    unfold m_define_by_shape, define_by_shape. cbv zeta. rewrite without_obind, without_silent. destruct (mapM _ _); [|reflexivity]. cbn [bind].
    apply bind_ext. intros t. apply define_without.
  Qed.
  Lemma new_builder_without em b d eps dep : without_text (m_new_builder_with (N := N) em b d eps dep) = new_builder_with em b d eps dep.
  Proof.
    unfold m_new_builder_with. cbv zeta. rewrite without_obind, without_complain. unfold new_builder_with at 2.
    destruct (guard (match d with None => true | Some d => is_floating d end) ValueError) as [u|] eqn:E1; [|reflexivity]. cbn [bind].
    rewrite without_obind, without_complain. destruct (guard (negb _) _) as [u'|] eqn:E2; [|reflexivity]. cbn [bind].
    rewrite without_silent. unfold new_builder_with. rewrite E1. cbn [bind]. rewrite E2. reflexivity.
  Qed.
  Lemma cache_without (s : st) name t : without_text (m_cache_update s name t) = cache_update s name t.
  Proof.
    unfold m_cache_update, cache_update, dmem, dlookup. rewrite without_obind, without_complain. destruct (dget name (updates s)) as [u|]; [|reflexivity]. cbn [guard bind negb].
    destruct (is_none u); cbn [complain obind negb]; [apply without_silent|reflexivity].
  Qed.
  Lemma loop_without (s : st) h : forall names accs upds, without_text (m_iterate_loop s h names accs upds) = iterate_loop s h names accs upds.
  Proof.
    induction names as [|k names IH]; intros accs upds; [reflexivity|]. cbn [m_iterate_loop iterate_loop].
    destruct (bind (dlookup k accs) _) as [[a u]|e]; [|reflexivity]. cbn [rewrap bind]. apply IH.
  Qed.
  Lemma iterate_without (s : st) h : without_text (m_iterate_act s h) = iterate_act s h.
  Proof.
    unfold m_iterate_act, iterate_act. rewrite without_obind, without_complain. apply bind_ext. intros _. cbv zeta.
    rewrite without_obind, without_silent. apply bind_ext. intros [[h' r] p].
    rewrite without_obind, loop_without. apply bind_ext. intros [a u]. apply without_silent.
  Qed.
  Lemma reset_without (s : st) : without_text (m_reset_batches s) = reset_batches s.
  Proof.
    unfold m_reset_batches. rewrite without_obind, without_complain, without_silent. unfold reset_batches, has_cached_updates.
    destruct (guard _ _) as [u|] eqn:E; [|reflexivity]. reflexivity.
  Qed.
End Without.

Section Leaves.
  Context {N : numsys}.
  Notation st := (state N).
  Notation tr := (tree (array N)).
  Fixpoint define_course (b : list nat) (i : nat) (ls : list (array N)) : list (bool * leaf_complaint) :=
    match ls with
    | [] => []
    | a :: ls' => (is_floating (a_dt a), NotFloating i (a_dt a))
                  :: (negb (Nat.ltb (length (a_shape a)) (length b)), TooFewDimensions i (length b) (length (a_shape a)))
                  :: (shape_eqb (firstn (length b) (a_shape a)) b, WrongBatch i b (firstn (length b) (a_shape a)))
                  :: define_course b (S i) ls'
    end.
  Lemma define_course_from b : forall ls i c x, In (c, x) (define_course b i ls) -> 3 * i <= leaf_rank x.
  Proof.
    induction ls as [|a ls IH]; intros i c x; [intros []|]. intros [H|[H|[H|H]]].
    1-3: injection H as _ <-; cbn [leaf_rank]; lia. apply IH in H. lia.
  Qed.
  Lemma define_course_ordered b : forall ls i, ordered leaf_rank (define_course b i ls).
  Proof.
    induction ls as [|a ls IH]; intros i; [constructor|]. cbn [define_course].
    assert (F := define_course_from b ls (S i)).
    apply ordered_cons; split; [apply ordered_cons; split; [apply ordered_cons; split; [apply IH|]|]|].
    - intros c y H. apply F in H. cbn [leaf_rank]. lia.
    - intros c y [H|H]; [injection H as _ <-; cbn [leaf_rank]; lia|]. apply F in H. cbn [leaf_rank]. lia.
    - intros c y [H|[H|H]]; [injection H as _ <-; cbn [leaf_rank]; lia|injection H as _ <-; cbn [leaf_rank]; lia|]. apply F in H. cbn [leaf_rank]. lia.
  Qed.
  Lemma define_course_in b : forall ls i c x, In (c, x) (define_course b i ls) <->
    exists j a, nth_error ls j = Some a /\ In (c, x) (define_course b (i + j) [a]).
  Proof.
    induction ls as [|a ls IH]; intros i c x.
    - split; [intros []|]. intros ([|j] & a & H & _); discriminate.
    - change (define_course b i (a :: ls)) with (define_course b i [a] ++ define_course b (S i) ls). rewrite in_app_iff, IH. split.
      + intros [H|(j & a' & Ha & H)]; [exists 0, a; now rewrite Nat.add_0_r|]. exists (S j), a'. replace (i + S j) with (S i + j) by lia. auto.
      + intros ([|j] & a' & Ha & H); [left; rewrite Nat.add_0_r in H; now injection Ha as ->|]. right. exists j, a'. replace (S i + j) with (i + S j) by lia. auto.
  Qed.
  Lemma define_course_iff (s : st) t x : In (false, x) (define_course (batch_shape s) 0 (leaves t)) <-> leaf_justified s t x.
  Proof.
    rewrite define_course_in. cbn [define_course plus In]. split.
    - intros (j & a & Ha & [H|[H|[H|[]]]]); injection H as E <-; cbn [leaf_justified]; exists a; split; try assumption; repeat split.
      + unfold is_floating in E. destruct (a_dt a); try discriminate; auto.
      + apply negb_false_iff, Nat.ltb_lt in E. exact E.
      + intros X. rewrite X, shape_eqb_refl in E. discriminate.
    - destruct x; cbn [leaf_justified]; intros (a & Ha & H); exists i, a; (split; [exact Ha|]).
      + destruct H as (-> & H). left. f_equal. destruct H as [-> | ->]; reflexivity.
      + destruct H as (-> & -> & H). right. left. f_equal. apply Nat.ltb_lt in H. now rewrite H.
      + destruct H as (-> & -> & H). right. right. left. f_equal. destruct (shape_eqb _ _) eqn:E; [|reflexivity]. apply shape_eqb_eq in E. contradiction.
  Qed.

  Ltac text_eq := unfold lines; cbn [map app String.concat append]; rewrite ?app_string_assoc; cbn [append]; rewrite ?app_string_assoc; reflexivity.
  Ltac fmt pre :=
    match goal with |- format_error_message ?m ?ctx = lines (?ctx :: shown (?l :: ?ls)) =>
      let E := fresh in assert (E : m = lines ("" :: map (append pre) (l :: ls) ++ [pre])) by text_eq; rewrite E; clear E;
      apply format_shown_b; [reflexivity|cbn; intros [Z|Z]; discriminate|reflexivity| |assumption|assumption]
    end; cbn [forallb]; rewrite ?one_line_app, ?one_line_str_shape, ?one_line_str_dtype, ?one_line_str_int; try reflexivity.
  Lemma validate_told b ctx : one_line ctx = true -> begins ctx -> forall (ls : list (array N)) i,
    m_validate_leaves b i ls ctx =
    match first_false (define_course b i ls) with Some x => Throws (leaf_exception x) (Some (lines (ctx :: leaf_explanation x))) | None => Gives tt end.
  Proof.
    intros C B. induction ls as [|a ls IH]; intros i; [reflexivity|]. cbn [m_validate_leaves define_course first_false].
    destruct (is_floating (a_dt a)); cbn [complain obind]; [|do 2 f_equal; cbn [leaf_explanation]; fmt "                "].
    destruct (negb _); cbn [complain obind]; [|do 2 f_equal; cbn [leaf_explanation]; fmt "                "].
    destruct (shape_eqb _ _); cbn [complain obind]; [|do 2 f_equal; cbn [leaf_explanation]; fmt "                "]. apply IH.
  Qed.
  Lemma define_throws (s : st) name t ctx e text : one_line ctx = true -> begins ctx ->
    (m_define s name t ctx = Throws e text <-> exists x, first_leaf_complaint s t x /\ e = leaf_exception x /\ text = Some (lines (ctx :: leaf_explanation x))).
  Proof.
    intros C B. unfold m_define, first_leaf_complaint. fold (batch_shape s). rewrite (validate_told _ _ C B).
    pose proof (fun x => first_false_iff leaf_rank (define_course (batch_shape s) 0 (leaves t)) x (define_course_ordered _ _ _)) as F.
    assert (G : forall x, first_false (define_course (batch_shape s) 0 (leaves t)) = Some x <-> leaf_justified s t x /\ forall y, leaf_justified s t y -> leaf_rank x <= leaf_rank y).
    { intros x. rewrite F, define_course_iff. split; intros [P Q]; (split; [exact P|]); intros y Y; apply Q; now apply define_course_iff. }
    destruct (first_false _) as [x|]; cbn [obind].
    - split; [intros [= <- <-]; exists x; split; [now apply G|auto]|]. intros (y & Y & -> & ->). apply G in Y. injection Y as ->. reflexivity.
    - split; [discriminate|]. intros (y & Y & _). apply G in Y. discriminate.
  Qed.

  (** *** The loop of [iterate_act] *)
  Definition commits (s : st) (h : array N) (accs upds : dict tr) (k : string) : Prop :=
    exists acc upd new, dget k accs = Some acc /\ dget k upds = Some upd /\ is_none upd = false /\ merge_pytrees (update_accumulator s h) acc upd = Ok new.
  Lemma commits_step (s : st) h accs upds k : 
    (exists r, (acc <- dlookup k accs ;; upd <- dlookup k upds ;; _ <- guard (negb (is_none upd)) RuntimeError ;;
      new_acc <- merge_pytrees (update_accumulator s h) acc upd ;; Ok (dset k new_acc accs, dset k tnone upds)) = Ok r) <-> commits s h accs upds k.
  Proof.
    unfold commits, dlookup. destruct (dget k accs) as [a|]; cbn [bind]; [|split; [intros [r H]; discriminate|intros (? & ? & ? & H & _); discriminate]].
    destruct (dget k upds) as [u|]; cbn [bind]; [|split; [intros [r H]; discriminate|intros (? & ? & ? & _ & H & _); discriminate]].
    destruct (is_none u) eqn:E; cbn [guard bind negb]; [split; [intros [r H]; discriminate|intros (? & ? & ? & _ & [= <-] & H & _); congruence]|].
    destruct (merge_pytrees _ a u) as [n|err] eqn:M; cbn [bind].
    - split; [intros _; exists a, u, n; auto|eauto].
    - split; [intros [r H]; discriminate|]. intros (? & ? & ? & [= <-] & [= <-] & _ & H). congruence.
  Qed.
  Lemma loop_throws (s : st) h e text : forall names accs upds, NoDup names ->
    (m_iterate_loop s h names accs upds = Throws e text <->
     exists before k after, names = before ++ k :: after /\ Forall (commits s h accs upds) before /\ ~ commits s h accs upds k /\ e = RuntimeError /\ text = Some (blame k)).
  Proof.
    induction names as [|k names IH]; intros accs upds D.
    - split; [discriminate|]. intros ([|? ?] & ? & ? & H & _); discriminate.
    - inversion D as [|? ? K D']; subst. cbn [m_iterate_loop]. pose proof (commits_step s h accs upds k) as S.
      match type of S with (exists r, ?X = Ok r) <-> _ => destruct X as [[a u]|err] eqn:E end.
      + assert (T : forall j, j <> k -> commits s h a u j <-> commits s h accs upds j).
        { assert (exists n v, a = dset k n accs /\ u = dset k v upds) as (n & v & -> & ->).
          { unfold bind in E. destruct (dlookup k accs); [|discriminate]. destruct (dlookup k upds); [|discriminate]. destruct (guard _ _); [|discriminate].
            destruct (merge_pytrees _ _ _); [|discriminate]. injection E as <- <-. eauto. }
          intros j J. unfold commits. now rewrite !dget_dset_neq by exact J. }
        assert (C : commits s h accs upds k) by (apply S; eauto).
        rewrite (IH a u D'). split.
        * intros (b & j & af & -> & F & G & H). exists (k :: b), j, af. split; [reflexivity|]. split.
          { constructor; [exact C|]. rewrite Forall_forall in *. intros x I. apply T; [|now apply F]. intros ->. apply K. apply in_app_iff. now left. }
          split; [|exact H]. rewrite <- T; [exact G|]. intros ->. apply K. apply in_app_iff. right. now left.
        * intros ([|k' b] & j & af & H & F & G & R); injection H as <- ->; [contradiction|]. exists b, j, af. split; [reflexivity|]. inversion F; subst. split.
          { rewrite Forall_forall in *. intros x I. apply T; [|auto]. intros ->. apply K. apply in_app_iff. now left. }
          split; [|exact R]. rewrite T; [exact G|]. intros ->. apply K. apply in_app_iff. right. now left.
      + assert (C : ~ commits s h accs upds k) by (rewrite <- S; intros [r H]; discriminate). split.
        * intros [= <- <-]. exists [], k, names. repeat (split; [solve [reflexivity|constructor|exact C]|]). unfold blame. do 2 f_equal. 
        * intros ([|k' b] & j & af & H & F & G & -> & ->); injection H as <- ->; [reflexivity|]. inversion F; contradiction.
  Qed.
End Leaves.
