(** * Properties of core/tensoreditor.py (C33 - C37, C58). Vocabulary: EditorSpec.v, Wf.v. *)
From Coq Require Import QArith Qcanon.
From Verif Require Import Base PyTree Tensor Num Utils States Controller Builder Editor Wf Spec History ElementSpec BuilderSpec UtilsSpec EditorSpec.
From Verif Require Import BaseFacts PyTreeFacts TensorFacts ControllerFacts IterateFacts ResetFacts HistoryFacts UtilsFacts.
From Verif Require Import QcFacts GravesFacts ExactFacts BuilderFacts EditorFacts Samples.
Close Scope Qc_scope. Close Scope Q_scope. Open Scope string_scope. Open Scope list_scope. Open Scope nat_scope.

Definition raises {A} (r : res A) : option exn := match r with Err e => Some e | Ok _ => None end.
Ltac vm := vm_compute; reflexivity.
Ltac cq := unfold Qcle, Qclt; vm_compute; (reflexivity || discriminate).
Notation "a .[ i ]" := (nth_error (a_data a) i) (at level 2, left associativity, format "a .[ i ]").

(** ** C33 *)
(** For every arithmetic: what "in range" means is decided by the comparisons of the arithmetic. *)
Theorem C33_setters_any_arithmetic {N} (s : state N) :
  let e := mkEd s "standard" in
  (forall v, (sig v = sig (probabilities s) /\ Forall in_unit (a_data v) ->
              set_probabilities e v = Ok (mkEd (mkState (epsilon s) (iterations s) (residuals s) v (defaults s)
                (accumulators s) (updates s) (depression_constant s) (error_mode s)) "standard")) /\
             (~ (sig v = sig (probabilities s) /\ Forall in_unit (a_data v)) -> set_probabilities e v = Err JaxRuntimeError)) /\
  (forall v, (sig v = sig (residuals s) /\ Forall in_unit (a_data v) ->
              set_residuals e v = Ok (mkEd (mkState (epsilon s) (iterations s) v (probabilities s) (defaults s)
                (accumulators s) (updates s) (depression_constant s) (error_mode s)) "standard")) /\
             (~ (sig v = sig (residuals s) /\ Forall in_unit (a_data v)) -> set_residuals e v = Err JaxRuntimeError)) /\
  (forall v, let ok := sig v = sig (iterations s) /\ Forall (fun x => v_leb N (v_zero N) x = true) (a_data v) in
             (ok -> set_iterations e v = Ok (mkEd (mkState (epsilon s) v (residuals s) (probabilities s) (defaults s)
                (accumulators s) (updates s) (depression_constant s) (error_mode s)) "standard")) /\
             (~ ok -> set_iterations e v = Err JaxRuntimeError)) /\
  (forall x, let ok := s_leb N (s_zero N) x = true /\ s_leb N x (s_one N) = true in
             (ok -> set_epsilon e x = Ok (mkEd (mkState x (iterations s) (residuals s) (probabilities s) (defaults s)
                (accumulators s) (updates s) (depression_constant s) (error_mode s)) "standard")) /\
             (~ ok -> set_epsilon e x = Err JaxRuntimeError)).
Proof.
  intros e. split; [|split; [|split]].
  - intros v. exact (set_probabilities_char e v eq_refl).
  - intros v. exact (set_residuals_char e v eq_refl).
  - intros v. exact (set_iterations_char e v eq_refl).
  - intros x. exact (set_epsilon_char e x eq_refl).
Qed.
Print Assumptions C33_setters_any_arithmetic.
Definition unit_interval (v : array QcNum) : Prop := forall x : Qc, In x (a_data v) -> (0 <= x /\ x <= 1)%Qc.
Theorem C33_setters_exact (s : st) :
  let e := mkEd s "standard" in
  (forall v, let ok := a_shape v = a_shape (probabilities s) /\ a_dt v = a_dt (probabilities s) /\ unit_interval v in
             (ok -> set_probabilities e v = Ok (mkEd (mkState (epsilon s) (iterations s) (residuals s) v (defaults s)
                (accumulators s) (updates s) (depression_constant s) (error_mode s)) "standard")) /\
             (~ ok -> set_probabilities e v = Err JaxRuntimeError)) /\
  (forall v, let ok := a_shape v = a_shape (residuals s) /\ a_dt v = a_dt (residuals s) /\ unit_interval v in
             (ok -> set_residuals e v = Ok (mkEd (mkState (epsilon s) (iterations s) v (probabilities s) (defaults s)
                (accumulators s) (updates s) (depression_constant s) (error_mode s)) "standard")) /\
             (~ ok -> set_residuals e v = Err JaxRuntimeError)) /\
  (forall v : array QcNum, let ok := a_shape v = a_shape (iterations s) /\ a_dt v = a_dt (iterations s) /\
                       (forall x : Qc, In x (a_data v) -> (0 <= x)%Qc) in
             (ok -> set_iterations e v = Ok (mkEd (mkState (epsilon s) v (residuals s) (probabilities s) (defaults s)
                (accumulators s) (updates s) (depression_constant s) (error_mode s)) "standard")) /\
             (~ ok -> set_iterations e v = Err JaxRuntimeError)) /\
  (forall x : Qc, let ok := (0 <= x /\ x <= 1)%Qc in
             (ok -> set_epsilon e x = Ok (mkEd (mkState (N := QcNum) x (iterations s) (residuals s) (probabilities s) (defaults s)
                (accumulators s) (updates s) (depression_constant s) (error_mode s)) "standard")) /\
             (~ ok -> set_epsilon e x = Err JaxRuntimeError)).
Proof.
  assert (U : forall v : array QcNum, Forall in_unit (a_data v) <-> unit_interval v).
  { intros v. unfold unit_interval. rewrite Forall_forall. split; intros H x Hx; apply in_unit_iff; auto. }
  assert (S : forall v w : array QcNum, sig v = sig w <-> a_shape v = a_shape w /\ a_dt v = a_dt w).
  { intros v w. unfold sig. split; [intros [= -> ->]; auto|intros [-> ->]; auto]. }
  destruct (C33_setters_any_arithmetic s) as (H1 & H2 & H3 & H4). intros e. split; [|split; [|split]].
  - intros v. destruct (H1 v) as [A B]. split; intros X; [apply A|apply B]; rewrite S, U; tauto.
  - intros v. destruct (H2 v) as [A B]. split; intros X; [apply A|apply B]; rewrite S, U; tauto.
  - intros v. destruct (H3 v) as [A B].
    assert (Nn : Forall (fun x => v_leb QcNum (v_zero QcNum) x = true) (a_data v) <-> forall x : Qc, In x (a_data v) -> (0 <= x)%Qc).
    { rewrite Forall_forall. split; intros H x Hx; apply Qcleb_le, H, Hx. }
    split; intros X; [apply A|apply B]; rewrite S, Nn; tauto.
  - intros x. destruct (H4 x) as [A B]. cbn [s_leb s_zero s_one QcNum] in A, B. rewrite !Qcleb_le in A, B. split; [exact A|exact B].
Qed.
Print Assumptions C33_setters_exact.
Example C33_case :
  is_ok (set_probabilities (mkEd ctl2 "standard") (arr [2] [q 1 2; q 1 1])) = true /\
  raises (set_probabilities (mkEd ctl2 "standard") (arr [2] [q 1 2; q 3 2])) = Some JaxRuntimeError /\
  raises (set_probabilities (mkEd ctl2 "standard") (arr [3] [q 1 2; q 0 1; q 0 1])) = Some JaxRuntimeError /\
  raises (set_residuals (mkEd ctl2 "standard") (farr DF64 [2] [q 1 2; q 0 1])) = Some JaxRuntimeError /\
  is_ok (set_iterations (mkEd ctl2 "standard") (farr (a_dt (iterations ctl2)) [2] [q 7 1; q 0 1])) = true /\
  raises (set_iterations (mkEd ctl2 "standard") (farr (a_dt (iterations ctl2)) [2] [q 7 1; q (-1) 1])) = Some JaxRuntimeError /\
  raises (set_epsilon (mkEd ctl2 "standard") (q 11 10)) = Some JaxRuntimeError.
Proof. repeat split; vm. Qed.

(** ** C34 *)
(** [t] in place of the accumulator / the default called [name], everything else untouched *)
Definition put_accumulator {N} (s : state N) (name : string) (t : tree (array N)) : state N :=
  mkState (epsilon s) (iterations s) (residuals s) (probabilities s) (defaults s)
    (dset name t (accumulators s)) (updates s) (depression_constant s) (error_mode s).
Definition put_default {N} (s : state N) (name : string) (t : tree (array N)) : state N :=
  mkState (epsilon s) (iterations s) (residuals s) (probabilities s) (dset name t (defaults s))
    (accumulators s) (updates s) (depression_constant s) (error_mode s).

(** Every tensor accumulator of every controller can be replaced by None (and so can its default),
    and a None accumulator by any tensor of any shape. *)
Theorem C34_refuted {N} (s : state N) name :
  In name (dkeys (defaults s)) ->
  (forall a, dget name (accumulators s) = Some (Leaf a) ->
     set_accumulator (mkEd s "standard") name tnone = Ok (mkEd (put_accumulator s name tnone) "standard") /\
     set_defaults (mkEd s "standard") name tnone = Ok (mkEd (put_default s name tnone) "standard")) /\
  (dget name (accumulators s) = Some tnone -> forall b,
     set_accumulator (mkEd s "standard") name (Leaf b) = Ok (mkEd (put_accumulator s name (Leaf b)) "standard")).
Proof.
  intros K. split.
  - intros a Ha. assert (L : like_accumulator s name tnone).
    { split; [exact K|]. intros t Ht. rewrite Ha in Ht. injection Ht as <-. split; [constructor|].
      intros i x y _ Hy. destruct i; discriminate. }
    split; [apply (set_accumulator_char (mkEd s "standard") name tnone eq_refl); exact L|
            apply (set_defaults_char (mkEd s "standard") name tnone eq_refl); exact L].
  - intros Ha b. assert (L : like_accumulator s name (Leaf b)).
    { split; [exact K|]. intros t Ht. rewrite Ha in Ht. injection Ht as <-. split; [constructor|].
      intros i x y Hx _. destruct i; discriminate. }
    apply (set_accumulator_char (mkEd s "standard") name (Leaf b) eq_refl); exact L.
Qed.
Print Assumptions C34_refuted.
(** Otherwise the promise holds: with None where the accumulator has None and only there, the
    setters succeed exactly for trees of equal structure, shapes and dtypes. *)
Theorem C34_partial {N} (s : state N) name v t :
  dget name (accumulators s) = Some t -> none_safe t v ->
  (In name (dkeys (defaults s)) /\ alike v t ->
     set_accumulator (mkEd s "standard") name v = Ok (mkEd (put_accumulator s name v) "standard") /\
     set_defaults (mkEd s "standard") name v = Ok (mkEd (put_default s name v) "standard")) /\
  (~ (In name (dkeys (defaults s)) /\ alike v t) ->
     set_accumulator (mkEd s "standard") name v = Err JaxRuntimeError /\
     set_defaults (mkEd s "standard") name v = Err JaxRuntimeError).
Proof.
  intros Ht NS.
  assert (E : like_accumulator s name v <-> In name (dkeys (defaults s)) /\ alike v t).
  { unfold like_accumulator. split.
    - intros [K L]. split; [exact K|]. destruct (L t Ht) as [A B]. apply alike_zipped; auto.
    - intros [K L]. split; [exact K|]. intros t' Ht'. rewrite Ht in Ht'. injection Ht' as <-.
      assert (S : structure t = structure v) by (symmetry; apply L). split; [|now apply alike_zipped].
      apply structure_equal_iff. unfold are_pytree_structure_equal. apply td_eqb_eq. now apply structure_none_out. }
  destruct (set_accumulator_char (mkEd s "standard") name v eq_refl) as [A1 A2].
  destruct (set_defaults_char (mkEd s "standard") name v eq_refl) as [B1 B2]. cbn [ed_state] in *.
  rewrite <- E. split; intros X; auto.
Qed.
Print Assumptions C34_partial.
Theorem C34_unknown_name {N} (s : state N) name v :
  ~ In name (dkeys (defaults s)) ->
  set_accumulator (mkEd s "standard") name v = Err JaxRuntimeError /\
  set_defaults (mkEd s "standard") name v = Err JaxRuntimeError.
Proof.
  intros K. split; [apply (set_accumulator_char (mkEd s "standard") name v eq_refl)|
    apply (set_defaults_char (mkEd s "standard") name v eq_refl)]; intros [X _]; exact (K X).
Qed.
Print Assumptions C34_unknown_name.
(** [none_safe] holds whenever neither tree contains None. *)
Theorem C34_none_safe_without_none {N} (t v : tree (array N)) : no_none t = true -> no_none v = true -> none_safe t v.
Proof. intros A B H. now apply no_none_structure. Qed.
Print Assumptions C34_none_safe_without_none.
Example C34_case :
  In "x" (dkeys (defaults ctl2)) /\ dget "x" (accumulators ctl2) = Some t_x /\ none_safe t_x (u_x 9 8 7 6) /\
  dget "y" (accumulators ctl2) = Some t_y /\ none_safe t_y (u_y 9 8 7 6) /\
  is_ok (set_accumulator (mkEd ctl2 "standard") "y" (u_y 9 8 7 6)) = true /\
  raises (set_accumulator (mkEd ctl2 "standard") "y" t_x) = Some JaxRuntimeError /\
  raises (set_defaults (mkEd ctl2 "standard") "x" (Leaf (arr [2] [q 0 1; q 0 1]))) = Some JaxRuntimeError /\
  raises (set_defaults (mkEd ctl2 "standard") "nope" t_x) = Some JaxRuntimeError.
Proof.
  split; [vm_compute; auto|]. split; [reflexivity|]. split; [intros _; reflexivity|]. split; [reflexivity|].
  split; [intros _; reflexivity|]. repeat split; vm.
Qed.

(** ** C35 *)
Theorem C35_silence {N} (s : state N) :
  (forall v, set_probabilities (mkEd s "silence") v = Ok (mkEd (mkState (epsilon s) (iterations s) (residuals s) v (defaults s)
     (accumulators s) (updates s) (depression_constant s) (error_mode s)) "silence")) /\
  (forall v, set_residuals (mkEd s "silence") v = Ok (mkEd (mkState (epsilon s) (iterations s) v (probabilities s) (defaults s)
     (accumulators s) (updates s) (depression_constant s) (error_mode s)) "silence")) /\
  (forall v, set_iterations (mkEd s "silence") v = Ok (mkEd (mkState (epsilon s) v (residuals s) (probabilities s) (defaults s)
     (accumulators s) (updates s) (depression_constant s) (error_mode s)) "silence")) /\
  (forall x, set_epsilon (mkEd s "silence") x = Ok (mkEd (mkState x (iterations s) (residuals s) (probabilities s) (defaults s)
     (accumulators s) (updates s) (depression_constant s) (error_mode s)) "silence")) /\
  (forall name v, set_accumulator (mkEd s "silence") name v = Ok (mkEd (put_accumulator s name v) "silence")) /\
  (forall name v, set_defaults (mkEd s "silence") name v = Ok (mkEd (put_default s name v) "silence")) /\
  (forall name v, set_updates (mkEd s "silence") name v =
     Ok (mkEd (mkState (epsilon s) (iterations s) (residuals s) (probabilities s) (defaults s)
       (accumulators s) (dset name v (updates s)) (depression_constant s) (error_mode s)) "silence")) /\
  (* reading back what was stored *)
  (forall name v, dget name (accumulators (put_accumulator s name v)) = Some v /\
     forall other, other <> name -> dget other (accumulators (put_accumulator s name v)) = dget other (accumulators s)).
Proof.
  assert (Z : forall r, execute_checks (N := N) (mkEd s "silence") r = Ok tt) by (intros r; apply checks_silent; discriminate).
  repeat split; intros;
    unfold set_probabilities, set_residuals, set_iterations, set_epsilon, set_accumulator, set_defaults, set_updates;
    rewrite ?Z; try reflexivity.
  - cbn [put_accumulator accumulators]. apply dget_dset_eq.
  - cbn [put_accumulator accumulators]. now apply dget_dset_neq.
Qed.
Print Assumptions C35_silence.
Theorem C35_modes {N} (s : state N) (mode : string) :
  (mode = "standard" \/ mode = "silence" ->
     edit_controller s mode = Ok (mkEd s mode) /\ edit_save s mode = Ok (mkEd s mode)) /\
  (mode <> "standard" -> mode <> "silence" ->
     edit_controller s mode = Err ValueError /\ edit_save s mode = Err ValueError).
Proof.
  split.
  - intros [-> | ->]; split; reflexivity.
  - intros H1 H2. unfold edit_controller, edit_save. cbn [error_modes existsb].
    destruct (String.eqb_spec mode m_standard); [contradiction|]. destruct (String.eqb_spec mode m_silence); [contradiction|].
    split; reflexivity.
Qed.
Print Assumptions C35_modes.
Example C35_case : raises (edit_controller ctl2 "loud") = Some ValueError /\
  is_ok (set_epsilon (mkEd ctl2 "silence") (q 7 1)) = true /\ raises (set_epsilon (mkEd ctl2 "standard") (q 7 1)) = Some JaxRuntimeError.
Proof. repeat split; vm. Qed.

(** ** C36 *)
(** An unknown name is reported as KeyError, not as a checkify error, for every value but None. *)
Theorem C36_refuted {N} (s : state N) name v :
  ~ In name (dkeys (defaults s)) ->
  (is_none v = false -> set_updates (mkEd s "standard") name v = Err KeyError) /\
  set_updates (mkEd s "standard") name tnone = Err JaxRuntimeError.
Proof.
  intros K. apply dget_none in K. split; [intros Nv|]; rewrite (set_updates_char (mkEd s "standard") _ _ eq_refl); cbn [ed_state]; rewrite K.
  - now rewrite Nv.
  - reflexivity.
Qed.
Print Assumptions C36_refuted.
Definition put_update {N} (s : state N) (name : string) (t : tree (array N)) : state N :=
  mkState (epsilon s) (iterations s) (residuals s) (probabilities s) (defaults s)
    (accumulators s) (dset name t (updates s)) (depression_constant s) (error_mode s).
Theorem C36_partial {N} (s : state N) name d v :
  dget name (defaults s) = Some d ->
  set_updates (mkEd s "standard") name tnone = Ok (mkEd (put_update s name tnone) "standard") /\
  (is_none v = false -> none_safe d v ->
     (alike v d -> set_updates (mkEd s "standard") name v = Ok (mkEd (put_update s name v) "standard")) /\
     (~ alike v d -> set_updates (mkEd s "standard") name v = Err JaxRuntimeError)).
Proof.
  intros D. split.
  - rewrite (set_updates_char (mkEd s "standard") _ _ eq_refl). cbn [ed_state]. rewrite D. reflexivity.
  - intros Nv NS. rewrite (set_updates_char (mkEd s "standard") _ _ eq_refl). cbn [ed_state]. rewrite D, Nv. cbn [orb].
    assert (E : are_pytree_structure_equal d v && forallb (fun b => b) (checks_leaves d v) = true <-> alike v d).
    { rewrite andb_true_iff, structure_equal_iff, leaves_checks. split.
      - intros [A B]. apply alike_zipped; auto.
      - intros L. assert (S : structure d = structure v) by (symmetry; apply L). split; [|now apply alike_zipped].
        apply structure_equal_iff. unfold are_pytree_structure_equal. apply td_eqb_eq. now apply structure_none_out. }
    split; intros X.
    + apply E in X. rewrite X. reflexivity.
    + destruct (_ && _); [exfalso; apply X, E; reflexivity|reflexivity].
Qed.
Print Assumptions C36_partial.
Example C36_case : dget "y" (defaults ctl2) = Some t_y /\ none_safe t_y (u_y 1 2 3 4) /\
  is_ok (set_updates (mkEd ctl2 "standard") "y" (u_y 1 2 3 4)) = true /\
  raises (set_updates (mkEd ctl2 "standard") "y" t_x) = Some JaxRuntimeError /\
  raises (set_updates (mkEd ctl2 "standard") "nope" t_x) = Some KeyError.
Proof. split; [reflexivity|]. split; [intros _; reflexivity|]. repeat split; vm. Qed.

(** ** C37 *)
(** Any mix of controller calls and standard edits keeps the invariant on which the controller
    theorems rest, and the kind of every tensor. *)
Theorem C37_sessions_keep_invariant {N} (s : state N) (acts : list (action N)) :
  wf s -> wf_pending s -> Forall action_wf acts -> Forall (action_none_safe s) acts ->
  wf (session "standard" s acts) /\ wf_pending (session "standard" s acts) /\
  same_kind s (session "standard" s acts).
Proof. intros W P A B. apply session_kind; auto using same_kind_refl. Qed.
Print Assumptions C37_sessions_keep_invariant.
Theorem C37_sessions_stay_in_range (s : st) (acts : list (action QcNum)) :
  wf s -> wf_pending s -> in_range s -> Forall action_wf acts -> Forall (action_none_safe s) acts ->
  in_range (session "standard" s acts).
Proof. intros W P R A B. eapply session_range; eauto using same_kind_refl. Qed.
Print Assumptions C37_sessions_stay_in_range.
Definition acts37 : list (action QcNum) :=
  [Edit (EProbabilities (hp (q 1 4) (q 3 4))); Call (CCache "x" (u_x 1 2 3 4)); Call (CIter (hp (q 1 2) (q 1 1)));
   Edit (EUpdates "y" (u_y 1 2 3 4)); Call (CIter (hp (q 1 2) (q 1 1))); Edit (EEpsilon (N := QcNum) (q 1 3));
   Edit (EAccumulator "y" (u_y 9 9 9 9)); Edit (EAccumulator "x" (u_y 9 9 9 9)); Edit (EDefaults "x" (u_x 0 0 0 0));
   Edit (EEpsilon (N := QcNum) (q 9 3)); Call CReset].
Lemma ctl2_in_range : in_range ctl2.
Proof.
  destruct ctl2_ok as [_ (F1 & F2 & F3 & _)]. split; try cq.
  - split; cq.
  - intros i p H. rewrite Forall_forall in F1. apply nth_error_In in H. rewrite <- (F1 _ H). split; cq.
  - intros i p H. rewrite Forall_forall in F2. apply nth_error_In in H. rewrite <- (F2 _ H). split; cq.
  - intros i p H. rewrite Forall_forall in F3. apply nth_error_In in H. rewrite <- (F3 _ H). cq.
Qed.
Lemma acts37_ok : Forall action_wf acts37 /\ Forall (action_none_safe ctl2) acts37.
Proof.
  split; [repeat constructor|]. assert (X : dget "x" (accumulators ctl2) = Some t_x) by reflexivity.
  assert (Y : dget "y" (accumulators ctl2) = Some t_y) by reflexivity.
  repeat constructor; cbn [action_none_safe edit_none_safe]; intros t Ht.
  - rewrite Y in Ht. injection Ht as <-. intros _. reflexivity.
  - rewrite X in Ht. injection Ht as <-. intros H. inversion H.
  - rewrite X in Ht. injection Ht as <-. intros _. reflexivity.
Qed.
Example C37_case : wf ctl2 /\ wf_pending ctl2 /\ in_range ctl2 /\ Forall action_wf acts37 /\ Forall (action_none_safe ctl2) acts37 /\
  map this (a_data (probabilities (session "standard" ctl2 (firstn 10 acts37)))) = [3 # 4; 1 # 1]%Q /\
  map this (a_data (iterations (session "standard" ctl2 (firstn 10 acts37)))) = [1 # 1; 1 # 1]%Q /\
  this (epsilon (session "standard" ctl2 acts37)) = (1 # 3)%Q.
Proof.
  destruct ctl2_ok as [W F]. split; [exact W|]. split; [exact (fresh_wf_pending _ F)|]. split; [exact ctl2_in_range|].
  split; [apply acts37_ok|]. split; [apply acts37_ok|]. repeat split; vm.
Qed.

(** ** C58 *)
(** set_epsilon accepts zero; from then on no call can ever halt an element. *)
Theorem C58_refuted (s : st) :
  wf s -> wf_pending s -> in_range s ->
  exists s0, set_epsilon (mkEd s "standard") 0%Qc = Ok (mkEd s0 "standard") /\
    forall cs i b, Forall call_wf cs -> nth_error (data (halted_batches (run s0 cs))) i = Some b -> b = false.
Proof.
  intros W P [[E0 E1] D Rp _ _]. eexists. split; [apply (set_epsilon_char (mkEd s "standard") 0%Qc eq_refl); split; reflexivity|].
  cbv zeta. cbn [ed_state]. intros cs i b F H.
  match type of H with context [run ?x cs] => set (s0 := x) in * end.
  assert (W0 : wf s0) by (destruct W; split; auto). assert (P0 : wf_pending s0) by exact P.
  assert (R : forall i p, nth_error (a_data (probabilities (run s0 cs))) i = Some p -> in01 p).
  { apply run_range; auto. unfold s0. cbn [epsilon]. cq. }
  apply halted_get_inv in H as (p & Hp & ->). destruct (R i p Hp) as [A B]. unfold halted_at, threshold.
  assert (E : epsilon (run s0 cs) = 0%Qc) by (rewrite (sf_eps _ _ (run_frame s0 cs W0 P0 F)); reflexivity).
  rewrite E. cbn [v_ltb v_of_scl s_one_sub QcNum]. apply Qcltb_ge. revert B. qc.
Qed.
Print Assumptions C58_refuted.
(** Every other accepted epsilon is sane: one full-strength step halts. *)
Theorem C58_partial (s : st) (x : Qc) :
  (0 < x)%Qc -> (x <= 1)%Qc -> wf s -> wf_pending s -> in_range s ->
  exists s0, set_epsilon (mkEd s "standard") x = Ok (mkEd s0 "standard") /\
    forall h s' i p v, awf h -> iterate_act s0 h = Ok s' -> (probabilities s).[i] = Some p -> h.[i] = Some v ->
      (1 - x < p + depression_constant s * clamp v)%Qc ->
      nth_error (data (halted_batches s')) i = Some true /\ (probabilities s').[i] = Some 1%Qc.
Proof.
  intros X0 X1 W P [[E0 E1] D Rp _ _].
  eexists. split.
  { apply (set_epsilon_char (mkEd s "standard") x eq_refl). split; apply Qcleb_le; [now apply Qclt_le_weak|exact X1]. }
  cbv zeta. cbn [ed_state]. match goal with |- context [iterate_act ?x _] => set (s0 := x) end.
  assert (W0 : wf s0) by (destruct W; split; auto). assert (P0 : wf_pending s0) by exact P.
  intros h s' i p v A H Hp Hv Hm.
  destruct (iterate_committed s0 h s' W0 P0 A H) as (C & W' & P').
  assert (Hp' := cm_p _ _ _ C i p v Hp Hv).
  assert (Hn : next_p s0 p v = 1%Qc).
  { unfold next_p, weight. assert (Hh : halts_now s0 p v = true).
    { unfold halts_now. rewrite (scaled_spec s0 v). unfold threshold. cbn [v_ltb v_add v_of_scl s_one_sub QcNum].
      apply Qcltb_lt. unfold s0. cbn [epsilon depression_constant]. revert Hm. qc. }
    rewrite Hh. qring. }
  rewrite Hn in Hp'. split; [|exact Hp']. rewrite (halted_get s' i _ Hp'). f_equal. unfold halted_at, threshold.
  rewrite (cm_eps _ _ _ C). unfold s0. cbn [epsilon v_ltb v_of_scl s_one_sub QcNum]. apply Qcltb_lt. revert X0. qc.
Qed.
Print Assumptions C58_partial.
Example C58_case : wf ctl2 /\ wf_pending ctl2 /\ in_range ctl2 /\
  (exists e, set_epsilon (mkEd ctl2 "standard") 0%Qc = Ok e /\
     map this (a_data (probabilities (run (ed_state e) calls2))) = [1 # 1; 1 # 1]%Q /\
     data (halted_batches (run (ed_state e) calls2)) = [false; false]) /\
  data (halted_batches (run ctl2 calls2)) = [true; true].
Proof.
  destruct ctl2_ok as [W F]. split; [exact W|]. split; [exact (fresh_wf_pending _ F)|]. split; [exact ctl2_in_range|].
  split; [|vm]. eexists. split; [apply (set_epsilon_char (mkEd ctl2 "standard") 0%Qc eq_refl); split; reflexivity|].
  split; vm.
Qed.
