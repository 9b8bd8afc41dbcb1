(** * Properties of core/states.py and of saving, loading and flattening (C38 - C40, C56, C57).
    Vocabulary: StateSpec.v. *)
From Coq Require Import QArith Qcanon.
From Verif Require Import Base PyTree Tensor Num Utils States Controller Builder Viewer Editor Layers Wf Spec History ElementSpec BuilderSpec StateSpec.
From Verif Require Import BaseFacts PyTreeFacts TensorFacts ControllerFacts IterateFacts ResetFacts HistoryFacts BuilderFacts.
From Verif Require Import QcFacts StateFacts Samples.
Close Scope Qc_scope. Close Scope Q_scope. Open Scope string_scope. Open Scope list_scope. Open Scope nat_scope.

Definition raises {A} (r : res A) : option exn := match r with Err e => Some e | Ok _ => None end.
Ltac vm := vm_compute; reflexivity.

(** ** C38 *)
(** Flattening and rebuilding gives an object with equal fields, for each of the four classes. *)
Theorem C38_round_trip {N} (s : state N) :
  proper s ->
  exists s', same_state s s' /\
    unflatten_controller (snd (flatten_controller s)) (fst (flatten_controller s)) = Ok s' /\
    unflatten_builder (snd (flatten_builder s)) (fst (flatten_builder s)) = Ok s' /\
    unflatten_viewer (snd (flatten_viewer s)) (fst (flatten_viewer s)) = Ok s' /\
    forall mode, unflatten_editor (snd (flatten_editor (mkEd s mode))) (fst (flatten_editor (mkEd s mode))) = Ok (mkEd s' mode).
Proof.
  intros P. exists (canonical s). split; [now apply canonical_same|].
  assert (R := flatten_round_trip s).
  split; [|split; [exact R|split; [exact R|]]].
  - unfold unflatten_controller, flatten_controller, save. rewrite R. reflexivity.
  - intros mode. unfold unflatten_editor, flatten_editor. cbn [ed_state ed_mode].
    destruct (tree_flatten_state s) as [flat td]. cbn [fst snd] in R |- *. rewrite R. reflexivity.
Qed.
Print Assumptions C38_round_trip.
(** The rebuilt controller goes on exactly like the original one: through any history the two stay
    equal, and a call raises on one iff it raises on the other. *)
Theorem C38_rebuilt_behaves_the_same {N} (s s' : state N) (cs : list (call N)) :
  proper s -> unflatten_controller (snd (flatten_controller s)) (fst (flatten_controller s)) = Ok s' ->
  same_state (run s cs) (run s' cs) /\
  forall c, is_ok (apply_call (run s cs) c) = is_ok (apply_call (run s' cs) c).
Proof.
  intros P H. assert (E : s' = canonical s).
  { unfold unflatten_controller, flatten_controller, save in H. rewrite (flatten_round_trip s) in H. cbn [bind] in H. unfold load in H. congruence. }
  subst s'. assert (L : linked s (canonical s)) by (split; [exact P|split; [now apply canonical_proper|now apply canonical_same]]).
  assert (L' := run_same _ _ cs L). split; [apply L'|]. intros c. assert (B := call_same _ _ c L').
  destruct (apply_call (run s cs) c), (apply_call (run (canonical s) cs) c); cbn in B; tauto.
Qed.
Print Assumptions C38_rebuilt_behaves_the_same.
(** A second round trip changes nothing at all. *)
Theorem C38_second_round_trip_is_identity {N} (s s' : state N) :
  proper s -> unflatten_controller (snd (flatten_controller s)) (fst (flatten_controller s)) = Ok s' ->
  unflatten_controller (snd (flatten_controller s')) (fst (flatten_controller s')) = Ok s'.
Proof.
  intros P. unfold unflatten_controller, flatten_controller, save, load. rewrite (flatten_round_trip s). cbn [bind]. intros [= <-].
  rewrite (flatten_round_trip (canonical s)). cbn [bind]. now rewrite (canonical_idem s P).
Qed.
Print Assumptions C38_second_round_trip_is_identity.
(** definition order "y" before "x": the rebuilt dictionaries are in key order *)
Definition ctl_yx : st := brun (core2 (q 1 1)) [BDirect "y" t_y; BDirect "x" t_x].
Lemma ctl_yx_proper : proper ctl_yx.
Proof.
  unfold proper. change (dkeys (defaults ctl_yx)) with ["y"; "x"]. change (dkeys (accumulators ctl_yx)) with ["y"; "x"].
  change (dkeys (updates ctl_yx)) with ["y"; "x"].
  assert (X : NoDup ["y"; "x"]) by (repeat constructor; cbn; intuition discriminate). auto.
Qed.
Example C38_case : proper ctl_yx /\ dkeys (accumulators ctl_yx) = ["y"; "x"] /\
  (exists s', unflatten_controller (snd (flatten_controller ctl_yx)) (fst (flatten_controller ctl_yx)) = Ok s' /\
     dkeys (accumulators s') = ["x"; "y"] /\ length (returned s' calls2) = 9) /\
  length (returned ctl_yx calls2) = 9.
Proof.
  split; [exact ctl_yx_proper|]. split; [reflexivity|]. split; [|vm].
  destruct (C38_round_trip ctl_yx ctl_yx_proper) as (s' & _ & H & _). exists s'. split; [exact H|].
  unfold unflatten_controller, flatten_controller, save in H. rewrite (flatten_round_trip ctl_yx) in H. cbn [bind] in H.
  unfold load in H. injection H as <-. split; vm.
Qed.

(** ** C39 *)
(** what jit and while_loop accept as a leaf *)
Definition numeric {N} (l : pyleaf N) : Prop := match l with LStr _ => False | _ => True end.
(** A state whose error_mode is a string has that string among its leaves: not one of the states
    that satisfy the declared field type (error_mode: str) can cross a jit boundary, and this is so
    for every state derived from it. *)
Theorem C39_refuted {N} (s : state N) (m : string) :
  error_mode s = Some m ->
  In (LStr m) (fst (flatten_controller s)) /\ ~ Forall numeric (fst (flatten_controller s)) /\
  forall cs, wf s -> wf_pending s -> Forall call_wf cs ->
    In (LStr m) (fst (flatten_controller (run s cs))).
Proof.
  assert (X : forall s : state N, error_mode s = Some m -> In (LStr m) (fst (flatten_controller s))).
  { clear. intros s E. unfold flatten_controller, save, tree_flatten_state, state_flatten. cbn [fst]. unfold field_trees. rewrite E.
    apply in_concat. exists [LStr m]. split; [|now left]. cbn [map]. cbn [In leaves]. do 8 right. left. reflexivity. }
  intros E. split; [now apply X|]. split.
  - intros F. rewrite Forall_forall in F. exact (F _ (X s E)).
  - intros cs W P F. apply X. rewrite (sf_mode _ _ (run_frame s cs W P F)). exact E.
Qed.
Print Assumptions C39_refuted.
(** A while loop refuses such a controller whatever its body: execute_act cannot succeed. *)
Theorem C39_execute_act_refused {N} (l : layer N) init dep bound check c m :
  l_make_controller l init dep = Ok (MCtrl c) -> error_mode c = Some m ->
  (exists e, execute_act l init dep bound check = Err e) /\
  (accumulators c <> [] -> l_setup_lazy l c init = Ok tt -> execute_act l init dep bound check = Err TypeError).
Proof.
  intros H E.
  assert (F : carry_leaves_ok c = false).
  { apply not_true_iff_false. unfold carry_leaves_ok. rewrite forallb_forall. intros F.
    destruct (C39_refuted c m E) as (I & _). specialize (F _ I). discriminate. }
  unfold execute_act, wrapped_make_controller, while_loop. rewrite H. cbn [bind]. split.
  - destruct (if check then validate_made (MCtrl c) else Ok tt); cbn [bind]; [|eauto].
    destruct (l_setup_lazy l c init); cbn [bind]; [|eauto]. rewrite F. cbn [guard bind]. eauto.
  - intros Ne L. assert (V : (if check then validate_made (MCtrl c) else Ok tt) = Ok tt).
    { destruct check; [|reflexivity]. cbn. destruct (accumulators c); [congruence|reflexivity]. }
    rewrite V. cbn [bind]. rewrite L. cbn [bind]. now rewrite F.
Qed.
Print Assumptions C39_execute_act_refused.
(** With error_mode None (not a str) all leaves are numeric. *)
Theorem C39_partial {N} (s : state N) :
  Forall numeric (fst (flatten_controller s)) <-> error_mode s = None.
Proof.
  split.
  - intros F. destruct (error_mode s) as [m|] eqn:E; [|reflexivity]. destruct (C39_refuted s m E) as (_ & X & _). contradiction.
  - intros E. unfold flatten_controller, save, tree_flatten_state, state_flatten. cbn [fst]. unfold field_trees. rewrite E.
    assert (D : forall d : dict (tree (array N)), Forall numeric (leaves (dict_tree d))).
    { intros d. unfold dict_tree. cbn [leaves]. rewrite Forall_forall. intros x Hx. apply in_flat_map in Hx as (t & Ht & Hx).
      apply in_map_iff in Ht as (t' & <- & _). rewrite leaves_tmap in Hx. apply in_map_iff in Hx as (a & <- & _). exact I. }
    cbn [map concat leaves app]. repeat constructor. cbn [flat_map app]. repeat (apply Forall_app; split); auto. repeat constructor.
Qed.
Print Assumptions C39_partial.
Example C39_case : error_mode ctl2 = Some "standard" /\ wf ctl2 /\ wf_pending ctl2 /\ Forall call_wf calls2.
Proof. destruct ctl2_ok as [W F]. split; [reflexivity|]. auto using fresh_wf_pending, calls2_wf. Qed.

(** ** C40 *)
Theorem C40_save_load {N} (s : state N) :
  (forall cs, run (load (save s)) cs = run s cs) /\
  (forall cs, returned (load (save s)) cs = returned s cs) /\
  halted_batches (load (save s)) = halted_batches s /\
  (* the viewer holds the controller's tensors *)
  same_state (make_viewer s) s /\
  (* opening an editor and building without an edit gives the controller back *)
  (forall mode e, edit_controller s mode = Ok e -> editor_build e = s) /\
  (forall mode e, edit_save (save s) mode = Ok e -> editor_build e = s /\ editor_save e = save s).
Proof.
  split; [reflexivity|]. split; [reflexivity|]. split; [reflexivity|]. split; [apply same_state_refl|].
  unfold edit_controller, edit_save. split; intros mode e; destruct (guard _ _); cbn [bind]; try discriminate; intros [= <-]; auto.
Qed.
Print Assumptions C40_save_load.
(** [controller[name]] is the accumulator of that name; an unknown name is a KeyError. A controller just
    built shows the definition. *)
Theorem C40_reading {N} (s : state N) name : proper s ->
  (forall t, getitem s name = Ok t <-> In (name, t) (accumulators s)) /\
  (forall e, getitem s name = Err e <-> e = KeyError /\ ~ In name (dkeys (accumulators s))) /\
  (forall t s', define_directly s name t = Ok s' -> getitem (build s') name = Ok t).
Proof.
  intros (_ & A & _). unfold getitem. split; [|split].
  - intros t. rewrite dlookup_ok. split; [apply dget_In|now apply dget_nodup].
  - intros e. rewrite <- dget_none. unfold dlookup. destruct (dget name (accumulators s)); split; try discriminate.
    + intros [_ X]. discriminate.
    + intros [= <-]. auto.
    + intros [-> _]. reflexivity.
  - intros t s' H. unfold define_directly, define, replace in H. apply bind_ok in H as (u & _ & H). cbn in H. injection H as <-.
    apply dlookup_ok. cbn. apply dget_dset_eq.
Qed.
Print Assumptions C40_reading.
Example C40_case : is_ok (edit_controller ctl2 "standard") = true /\ is_ok (edit_save (save ctl2) "silence") = true /\
  length (returned (load (save (run ctl2 calls2))) calls2) = 9 /\ proper ctl2 /\ is_ok (getitem ctl2 "y") = true.
Proof. repeat split; try vm; apply (wf_proper _ (proj1 ctl2_ok)). Qed.

(** ** C56 *)
Theorem C56_refuted {N} (s : state N) :
  (forall x, validate_epsilon s x = Err NameError) /\
  (forall v, validate_iterations s v = Err NameError) /\
  (* checks nothing and returns None instead of its operand *)
  (forall v, validate_residuals s v = Ok None) /\
  (forall r d, r_depression_constant r = Some d -> replace s r = Err AttributeError) /\
  (forall r m, r_error_mode r = Some m -> replace s r = Err AttributeError).
Proof.
  repeat split; intros; unfold replace.
  - now rewrite H.
  - destruct (r_depression_constant r); cbn [bind]; [reflexivity|]. now rewrite H.
Qed.
Print Assumptions C56_refuted.
Example C56_case : raises (validate_epsilon ctl2 (q 1 2)) = Some NameError /\
  raises (replace ctl2 (mkR (N := QcNum) None None None None None None None (Some (q 1 2)) None)) = Some AttributeError.
Proof. split; vm. Qed.

(** ** C57 *)
Theorem C57_replace {N} (s : state N) (r : replace_args N) :
  r_depression_constant r = None -> r_error_mode r = None ->
  exists s', replace s r = Ok s' /\
    (epsilon s' = match r_epsilon r with Some x => x | None => epsilon s end) /\
    (iterations s' = match r_iterations r with Some x => x | None => iterations s end) /\
    (residuals s' = match r_residuals r with Some x => x | None => residuals s end) /\
    (probabilities s' = match r_probabilities r with Some x => x | None => probabilities s end) /\
    (defaults s' = match r_defaults r with Some x => x | None => defaults s end) /\
    (accumulators s' = match r_accumulators r with Some x => x | None => accumulators s end) /\
    (updates s' = match r_updates r with Some x => x | None => updates s end) /\
    depression_constant s' = depression_constant s /\ error_mode s' = error_mode s.
Proof. intros H1 H2. unfold replace. rewrite H1, H2. eexists. split; [reflexivity|]. repeat split. Qed.
Print Assumptions C57_replace.
Theorem C57_replace_nothing {N} (s : state N) : replace s no_args = Ok s.
Proof. now destruct s. Qed.
Print Assumptions C57_replace_nothing.
Theorem C57_replace_last_wins {N} (s s1 : state N) (r1 r2 : replace_args N) :
  r_depression_constant r2 = None -> r_error_mode r2 = None ->
  replace s r1 = Ok s1 ->
  (forall x, r_epsilon r2 = Some x -> exists s2, replace s1 r2 = Ok s2 /\ epsilon s2 = x) /\
  exists s2, replace s1 r2 = Ok s2 /\ depression_constant s2 = depression_constant s /\ error_mode s2 = error_mode s.
Proof.
  intros H1 H2 H. assert (D : depression_constant s1 = depression_constant s /\ error_mode s1 = error_mode s).
  { unfold replace in H. destruct (r_depression_constant r1), (r_error_mode r1); cbn [bind] in H; try discriminate. injection H as <-. auto. }
  unfold replace. rewrite H1, H2. split.
  - intros x Hx. eexists. split; [reflexivity|]. cbn. now rewrite Hx.
  - eexists. split; [reflexivity|]. exact D.
Qed.
Print Assumptions C57_replace_last_wins.
Example C57_case : is_ok (replace ctl2 (mkR (N := QcNum) (Some (q 1 2)) None (Some (hp (q 0 1) (q 1 1))) None (Some []) None None None None)) = true.
Proof. vm. Qed.
