(** * C85: error messages say what is wrong *)
From Coq Require Import Ascii Lia QArith Qcanon.
From Verif Require Import Base BaseFacts PyTree Tensor TensorFacts Num Utils States Controller ControllerFacts Builder BuilderSpec BuilderFacts Editor Checkify Wf UtilsSpec EditorSpec IterateFacts.
From Verif Require Import Text TextSpec TextFacts PyStr Messages MessagesSpec MessagesFacts MessagesFacts2 MessagesFacts3 MessagesFacts4 QcFacts History HistoryFacts Samples PropsController.
Close Scope Qc_scope. Close Scope Q_scope. Open Scope string_scope. Open Scope list_scope. Open Scope nat_scope.

(** ** Nothing but a text has been added: the methods with texts have the outcomes of those without. *)
Theorem C85_same_outcomes {N} (str_scl : scl N -> string) (s : state N) (e : editor N) :
  (forall c, without_text (edit_aloud str_scl e c) = apply_edit e c) /\
  (forall name t, without_text (m_define_directly s name t) = define_directly s name t) /\
  (forall name shapes d fill, without_text (m_define_by_shape s name shapes d fill) = define_by_shape s name shapes d fill) /\
  (forall em b d eps dep, without_text (m_new_builder_with (N := N) em b d eps dep) = new_builder_with em b d eps dep) /\
  (forall name t, without_text (m_cache_update s name t) = cache_update s name t) /\
  (forall h, without_text (m_iterate_act s h) = iterate_act s h) /\
  without_text (m_reset_batches s) = reset_batches s.
Proof.
  split; [intros c; apply edit_without|]. split; [intros; apply define_without|]. split; [intros; apply define_by_shape_without|].
  split; [intros; apply new_builder_without|]. split; [intros; apply cache_without|]. split; [intros; apply iterate_without|apply reset_without].
Qed.
Print Assumptions C85_same_outcomes.

(** ** A setter of an editor in mode "standard". The message it raises is the first that is true, in the order of [rank];
    a tree as update of an accumulator that does not exist is a KeyError (C36). *)
Theorem C85_setters {N} (str_scl : scl N -> string) (e : editor N) (c : edit N) :
  ed_mode e = "standard" -> printable str_scl c ->
  ((exists e', edit_aloud str_scl e c = Gives e') <-> forall x, ~ justified (ed_state e) c x) /\
  (forall err text, edit_aloud str_scl e c = Throws err text <->
     (stray_update (ed_state e) c /\ err = KeyError /\ text = None) \/
     (~ stray_update (ed_state e) c /\ err = JaxRuntimeError /\
        exists x, first_complaint (ed_state e) c x /\ text = Some (message str_scl c x))).
Proof.
  intros M P. destruct (stray_dec str_scl (ed_state e) c) as [S|S].
  - rewrite (edit_stray str_scl e c M P S). split.
    + split; [intros [e' H]; discriminate|]. intros H. exfalso. destruct c; try (destruct S; fail). destruct S as [S _]. apply (H NotDefined). left. auto.
    + intros err text. split; [intros [= <- <-]; left; auto|]. intros [(_ & -> & ->)|(X & _)]; [reflexivity|contradiction].
  - destruct (edit_told str_scl e c M P S) as [e' E]. rewrite E. split; [apply told_gives|]. intros err text. rewrite told_throws. split.
    + intros (-> & H). right. auto.
    + intros [(X & _)|(_ & -> & H)]; [contradiction|auto].
Qed.
Print Assumptions C85_setters.
(** The message identifies the setter, what is wrong, and the numbers and names it mentions. *)
Theorem C85_setter_texts_differ {N} (str_scl : scl N -> string) (c c' : edit N) x x' :
  printable str_scl c -> printable str_scl c' -> message str_scl c x = message str_scl c' x' ->
  same_setter c c' /\ x = x' /\ (x = NotDefined -> name_of c = name_of c') /\
  match c with EDefaults n _ | EUpdates n _ => n = name_of c' | _ => True end.
Proof.
  intros P P' E. apply message_splits in E as [H E]; try assumption. split; [now apply heading_tells|].
  pose proof (explanation_tells str_scl c c' x x' E) as <-. split; [reflexivity|]. split; [intros ->; exact (not_defined_tells str_scl c c' E)|now apply names_tell].
Qed.
Print Assumptions C85_setter_texts_differ.

(** ** Definitions: the message is about the first leaf that is wrong, and about the first thing wrong with it. *)
Theorem C85_definitions {N} (s : state N) name :
  (forall t e text, m_define_directly s name t = Throws e text <->
     exists x, first_leaf_complaint s t x /\ e = leaf_exception x /\
       text = Some (lines ("An issue occurred while defining an accumulator directly" :: leaf_explanation x))) /\
  (one_line name = true -> forall shapes d fill t, describes d (v_of_scl N fill) shapes t -> forall e text,
     m_define_by_shape s name shapes d fill = Throws e text <->
     exists x, first_leaf_complaint s t x /\ e = leaf_exception x /\
       text = Some (lines (("An issue occurred when defining an accumulator named '" ++ name ++ "' directly by shape")%string :: leaf_explanation x))) /\
  (forall x x', lines (leaf_explanation x) = lines (leaf_explanation x') -> x = x').
Proof.
  split; [|split].
  - intros t e text. apply define_throws; [reflexivity|cbn; intros [Z|Z]; discriminate].
  - intros O shapes d fill t D e text. apply made_describes in D. unfold made, tree_mapM in D. unfold m_define_by_shape. cbv zeta. rewrite D. cbn [silent obind].
    apply define_throws; [rewrite !one_line_app, O; reflexivity|cbn; intros [Z|Z]; discriminate].
  - apply leaf_tells.
Qed.
Print Assumptions C85_definitions.
Theorem C85_new_builder {N : numsys} em b d eps dep :
  (d = Some DBool \/ d = Some DInt32 ->
   m_new_builder_with (N := N) em b d eps dep =
     Throws ValueError (Some (lines ["An issue occurred while creating a new builder:"; "    dtype of probabilities core must be floating"]))) /\
  (d <> Some DBool -> d <> Some DInt32 -> s_leb N (s_one N) eps = true \/ s_leb N eps (s_zero N) = true ->
   m_new_builder_with (N := N) em b d eps dep =
     Throws ValueError (Some (lines ["An issue occurred while creating a new builder:"; "    epsilon insane: Not between 0 and 1"]))).
Proof.
  unfold m_new_builder_with. cbv zeta. rewrite !format_line; try reflexivity; try (cbn; intros [Z|Z]; discriminate). split.
  - intros [-> | ->]; reflexivity.
  - intros H1 H2 H. assert (match d with Some d => is_floating d | None => true end = true) as ->.
    { destruct d as [[]|]; try reflexivity; exfalso; auto. }
    cbn [complain obind]. apply orb_true_iff in H. rewrite H. reflexivity.
Qed.
Print Assumptions C85_new_builder.

(** ** The controller *)
Theorem C85_caching {N} (s : state N) name t :
  (dget name (updates s) = None ->
   m_cache_update s name t = Throws ValueError (Some ("Accumulator with name " ++ name ++ " was never setup")%string)) /\
  (forall u, dget name (updates s) = Some u -> is_none u = false ->
   m_cache_update s name t = Throws RuntimeError (Some ("Accumulator with name " ++ name ++ " was already set this iteration!")%string)).
Proof.
  unfold m_cache_update, dmem, dlookup. split.
  - intros ->. reflexivity.
  - intros u -> H. cbn [complain obind]. now rewrite H.
Qed.
Print Assumptions C85_caching.
(** An iteration that fails over an accumulator names the first one, in the order of definition, whose update is missing or does not fit. *)
Theorem C85_iteration {N} (s : state N) (h : array N) :
  wf s -> wf_pending s -> awf h ->
  (a_shape h <> batch_shape s ->
   m_iterate_act s h = Throws ValueError (Some "Batch shape and shapes of halting probabilities do not match")) /\
  (a_shape h = batch_shape s -> weak_float (a_dt h) = a_dt (probabilities s) -> forall e text,
   m_iterate_act s h = Throws e text <->
   exists before k after, dkeys (accumulators s) = before ++ k :: after /\ Forall (can_commit s) before /\ ~ can_commit s k /\
     e = RuntimeError /\ text = Some (blame k)).
Proof.
  intros W P A. unfold m_iterate_act. fold (batch_shape s). split.
  - intros H. destruct (shape_eqb _ _) eqn:E; [apply shape_eqb_eq in E; contradiction|reflexivity].
  - intros E Ed e text. rewrite E, shape_eqb_refl. cbn [complain obind]. rewrite (process_probabilities_char s h W A E), Ed, dtype_eqb_refl.
    cbv zeta. cbn [silent obind]. set (w := mkA _ _).
    assert (C : forall k, commits s w (accumulators s) (updates s) k <-> can_commit s k).
    { intros k. unfold commits, can_commit. split.
      - intros (t & u & n & Ht & Hu & Hn & M). exists t, u. repeat (split; [assumption|]).
        apply merge_update_inv in M; [apply M|assumption|assumption|assumption|exact (wf_acc _ W _ _ Ht)|exact (P _ _ Hu)].
      - intros (t & u & Ht & Hu & Hn & F). destruct (merge_update_ok s h t u W A E (wf_acc _ W _ _ Ht) (P _ _ Hu) F) as [n M]. exists t, u, n. auto. }
    pose proof (loop_throws s w e text (dkeys (accumulators s)) (accumulators s) (updates s) (wf_nodup_a _ W)) as L.
    assert (R : (exists before k after, dkeys (accumulators s) = before ++ k :: after /\ Forall (commits s w (accumulators s) (updates s)) before /\
                  ~ commits s w (accumulators s) (updates s) k /\ e = RuntimeError /\ text = Some (blame k)) <->
                (exists before k after, dkeys (accumulators s) = before ++ k :: after /\ Forall (can_commit s) before /\ ~ can_commit s k /\
                  e = RuntimeError /\ text = Some (blame k))).
    { split; intros (b & k & af & X & F & G & H); exists b, k, af; (split; [exact X|]); (split; [|split; [now rewrite C in *|exact H]]).
      - eapply Forall_impl; [|exact F]. intros x. apply C.
      - eapply Forall_impl; [|exact F]. intros x. apply C. }
    rewrite <- R, <- L. clear R L. destruct (m_iterate_loop _ _ _ _ _) as [[accs upds]|e0 t0]; cbn [obind]; [|split; intros [= <- <-]; reflexivity].
    rewrite (iterations_char s W). cbn [bind]. rewrite replace_iterate. cbn [silent]. split; discriminate.
Qed.
Print Assumptions C85_iteration.
Theorem C85_reset {N} (s : state N) : NoDup (dkeys (updates s)) ->
  (exists k u, dget k (updates s) = Some u /\ is_none u = false) ->
  m_reset_batches s = Throws RuntimeError (Some "Attempt to reset batches while updates are pending. Finish current iteration.").
Proof.
  intros D (k & u & H & Z). unfold m_reset_batches. assert (existsb (fun kv => negb (is_none (snd kv))) (updates s) = true) as ->; [|reflexivity].
  apply existsb_exists. exists (k, u). split; [now apply dget_In|]. cbn. now rewrite Z.
Qed.
Print Assumptions C85_reset.

Definition said {A} (o : outcome A) : option (exn * option string) := match o with Gives _ => None | Throws e t => Some (e, t) end.
(** Two trees with a leaf of another shape: the message names the leaf; its second leaf also has another dtype. *)
Example C85_case :
  said (edit_aloud (fun _ => "?") (mkEd ctl2 "standard") (EAccumulator (N := QcNum) "y"
    (Node (NDict ["a"; "b"]) [Leaf (arr [2] [q 0 1; q 0 1]); Node NTuple [Leaf (farr DF16 [2; 2] [q 1 2; q 1 3; q 1 2; q 1 3]); tnone]]))) =
  Some (JaxRuntimeError, Some "An error occurred while setting to an accumulator with an Editor:

    An issue occurred in leaf 1

    The original shape was (2, 1).
    However, the update has shape (2, 2)

    These do not match.
") /\
  said (edit_aloud (fun _ => "?") (mkEd ctl2 "standard") (EUpdates (N := QcNum) "w" t_x)) = Some (KeyError, None) /\
  said (edit_aloud (fun _ => "?") (mkEd ctl2 "standard") (EAccumulator (N := QcNum) "w" t_x)) =
  Some (JaxRuntimeError, Some "An error occurred while setting to an accumulator with an Editor:

    Accumulator of name 'w' was never setup using a define statement
    in the builder. This means you cannot set to it.
") /\
  said (m_define_directly ctl2 "z" (Node NList [Leaf (arr [2] [q 0 1; q 0 1]); Leaf (arr [3; 2] [q 0 1; q 0 1; q 0 1; q 0 1; q 0 1; q 0 1])])) =
  Some (ValueError, Some "An issue occurred while defining an accumulator directly

    A shape issue occurred. It was expected that the provided
    pytree would have had batch shape (2,). However,
    leaf '1' had shape (3,)
").
Proof. repeat split; vm_compute; reflexivity. Qed.
(** [ctl2] has the accumulators "x" and "y"; only "x" has an update. *)
Definition half_cached : st := match cache_update ctl2 "x" (u_x 1 2 3 4) with Ok s => s | Err _ => ctl2 end.
Example C85_case_iteration : said (m_iterate_act half_cached (hp (q 1 2) (q 1 4))) = Some (RuntimeError, Some (blame "y")) /\
  wf half_cached /\ wf_pending half_cached /\ awf (hp (q 1 2) (q 1 4)) /\ a_shape (hp (q 1 2) (q 1 4)) = batch_shape half_cached /\
  weak_float (a_dt (hp (q 1 2) (q 1 4))) = a_dt (probabilities half_cached).
Proof.
  split; [vm_compute; reflexivity|].
  assert (wf half_cached /\ wf_pending half_cached) as [W P]; [|split; [exact W|split; [exact P|]]; repeat split; reflexivity].
  destruct ctl2_ok as [W F]. apply fresh_wf_pending in F. unfold half_cached. destruct (cache_update ctl2 "x" (u_x 1 2 3 4)) as [s|] eqn:E; [|auto].
  pose proof (apply_call_wf ctl2 s (CCache "x" (u_x 1 2 3 4)) W F) as X. apply X; [repeat constructor|exact E].
Qed.
Example C85_case_more :
  said (m_cache_update half_cached "w" t_x) = Some (ValueError, Some "Accumulator with name w was never setup") /\
  said (m_cache_update half_cached "x" t_x) = Some (RuntimeError, Some "Accumulator with name x was already set this iteration!") /\
  said (m_reset_batches half_cached) = Some (RuntimeError, Some "Attempt to reset batches while updates are pending. Finish current iteration.") /\
  said (m_iterate_act half_cached (arr [1] [q 1 2])) = Some (ValueError, Some "Batch shape and shapes of halting probabilities do not match") /\
  said (m_new_builder_with (N := QcNum) None (BInt 2) None (q 0 1) (q 1 1)) =
    Some (ValueError, Some (lines ["An issue occurred while creating a new builder:"; "    epsilon insane: Not between 0 and 1"])).
Proof. repeat split; vm_compute; reflexivity. Qed.
