(** * Properties: nothing depends on the contents of arrays but contents (C73, C74). Vocabulary: TraceSpec.v. *)
From Coq Require Import QArith Qcanon.
From Verif Require Import Base PyTree Tensor Num Utils States Controller Builder Viewer Editor Layers Wf History ElementSpec LayerSpec TraceSpec.
From Verif Require Import BaseFacts PyTreeFacts TraceFacts TraceFacts2 LayerFacts Samples PropsController PropsLayers.
Close Scope Qc_scope. Close Scope Q_scope. Open Scope string_scope. Open Scope list_scope. Open Scope nat_scope.

(** ** C73 *)
(** Two controllers with equal names, structures, shapes and dtypes, but unrelated contents: the same
    call ends with the same exception on both, or with like controllers; and what the call history says
    about pending updates is the same. *)
Theorem C73_one_call {N M} (s : state N) (s' : state M) c c' : like s s' -> like_call c c' ->
  same_outcome like (apply_call s c) (apply_call s' c') /\
  (updates_ready_to_commit s = updates_ready_to_commit s' /\ has_cached_updates s = has_cached_updates s') /\
  forall name, same_outcome like_tree (getitem s name) (getitem s' name).
Proof.
  intros H C. split; [now apply rr_call|]. split; [now apply lk_bools|].
  intros name. exact (rr_dlookup like_tree name _ _ (like_accumulators _ _ H)).
Qed.
Print Assumptions C73_one_call.
(** The same for whole histories: the same calls return. *)
Theorem C73_history {N M} (s : state N) (s' : state M) cs cs' : like s s' -> Forall2 like_call cs cs' ->
  like (run s cs) (run s' cs') /\ Forall2 like_call (returned s cs) (returned s' cs').
Proof.
  intros H C. revert s s' H. induction C as [|c c' cs cs' Hc C IH]; intros s s' H; [cbn; auto|].
  pose proof (rr_call _ _ _ _ H Hc) as R. cbn [run fold_left returned]. unfold after.
  destruct (apply_call s c) as [t|e], (apply_call s' c') as [t'|e']; cbn in R; try contradiction.
  - destruct (IH _ _ R) as [A B]. split; [exact A|constructor; auto].
  - exact (IH _ _ H).
Qed.
Print Assumptions C73_history.
(** A run without contents foretells the exceptions, shapes, dtypes and structures of every history
    (what jax.eval_shape and jax.jit do). *)
Theorem C73_evaluated_without_contents {N} (s : state N) cs :
  like (run s cs) (run (forget s) (map forget_call cs)) /\
  forall c, same_outcome like (apply_call (run s cs) c) (apply_call (run (forget s) (map forget_call cs)) (forget_call c)).
Proof.
  assert (FT : forall t : tree (array N), like_tree t (tmap forget_array t)).
  { intros t. split; [now rewrite structure_tmap|]. rewrite leaves_tmap. induction (leaves t); cbn; constructor; auto. split; reflexivity. }
  assert (FC : forall c : call N, like_call c (forget_call c)).
  { intros [name item|h|]; cbn; [split; [reflexivity|apply FT]|split; reflexivity|exact I]. }
  assert (FS : like s (forget s)).
  { assert (FD : forall d : dict (tree (array N)), like_dict d (forget_dict d)).
    { intros d. unfold forget_dict. induction d; cbn; constructor; [split; [reflexivity|apply FT]|assumption]. }
    constructor; cbn; auto; split; reflexivity. }
  assert (L : like (run s cs) (run (forget s) (map forget_call cs))).
  { apply C73_history; [exact FS|]. clear FS. induction cs; cbn; constructor; auto. }
  split; [exact L|]. intros c. now apply rr_call.
Qed.
Print Assumptions C73_evaluated_without_contents.
(** Viewers: masking, and any transformation that does not look into the arrays. *)
Theorem C73_viewer {N M} (s : state N) (s' : state M) : like s s' ->
  same_outcome like (halted_only s) (halted_only s') /\ same_outcome like (unhalted_only s) (unhalted_only s') /\
  (forall d m m', shape m = shape m' -> same_outcome like (mask_data s d m) (mask_data s' d m')) /\
  (forall f f', (forall a a', like_array a a' -> same_outcome like_array (f a) (f' a')) ->
     same_outcome like (transform s f) (transform s' f')).
Proof.
  intros H. destruct (rr_halted_views _ _ H) as [U W]. repeat split; auto.
  - intros d m m' E. now apply rr_mask_data.
  - intros f f' F. now apply rr_transform.
Qed.
Print Assumptions C73_viewer.
(** Builders: definitions are judged by names, structure, shape and dtype only. *)
Theorem C73_builder {N M} (s : state N) (s' : state M) name : like s s' ->
  (forall t t', like_tree t t' -> same_outcome like (define_directly s name t) (define_directly s' name t')) /\
  (forall shapes d fill fill', same_outcome like (define_by_shape s name shapes d fill) (define_by_shape s' name shapes d fill')) /\
  same_outcome like (delete_definition s name) (delete_definition s' name).
Proof.
  intros H. repeat split.
  - intros t t' T. now apply rr_define.
  - intros shapes d fill fill'. now apply rr_by_shape.
  - now apply rr_delete.
Qed.
Print Assumptions C73_builder.
(** An editor in silent mode does not look either. *)
Theorem C73_silent_editor {N M} (e : editor N) (e' : editor M) : like_editor e e' -> ed_mode e = m_silence ->
  (forall a a', like_array a a' ->
     same_outcome like_editor (set_probabilities e a) (set_probabilities e' a') /\
     same_outcome like_editor (set_residuals e a) (set_residuals e' a') /\
     same_outcome like_editor (set_iterations e a) (set_iterations e' a')) /\
  (forall x x', same_outcome like_editor (set_epsilon e x) (set_epsilon e' x')) /\
  (forall name t t', like_tree t t' ->
     same_outcome like_editor (set_accumulator e name t) (set_accumulator e' name t') /\
     same_outcome like_editor (set_defaults e name t) (set_defaults e' name t') /\
     same_outcome like_editor (set_updates e name t) (set_updates e' name t')).
Proof.
  intros E S. assert (Q : quiet e) by (unfold quiet; rewrite S; discriminate). pose proof (proj1 E) as H.
  split; [|split].
  - intros a a' A. repeat split; apply rr_edit; auto; repeat split; cbn; auto; apply A.
  - intros x x'. apply rr_edit; auto. repeat split; cbn; auto.
  - intros name t t' T. repeat split; apply rr_edit; auto; repeat split; cbn; auto;
      (apply (ldict_set like_tree); [apply H|exact T]).
Qed.
Print Assumptions C73_silent_editor.
(** Histories alike in all but contents: the halting of elements differs, the course of the calls does
    not; of the eleven calls the same nine return, also without contents. *)
Definition calls2' : list (call QcNum) :=
  [CCache "x" (u_x 0 0 0 0); CCache "y" (u_y 9 9 9 9); CIter (hp (q 1 1) (q 0 1));
   CIter (hp (q 0 1) (q 0 1)); CCache "nope" t_x;
   CCache "y" (u_y 5 5 5 5); CCache "x" (u_x 1 1 1 1); CIter (hp (q 0 1) (q 0 1));
   CCache "y" (u_y 5 6 7 8); CCache "x" (u_x 5 6 7 8); CIter (hp (q 0 1) (q 0 1))].
Example C73_case :
  like ctl2 ctl2 /\ Forall2 like_call calls2 calls2' /\
  map this (a_data (iterations (run ctl2 calls2))) = [2#1; 3#1]%Q /\ map this (a_data (iterations (run ctl2 calls2'))) = [1#1; 3#1]%Q /\
  length (returned ctl2 calls2) = 9 /\ length (returned ctl2 calls2') = 9 /\
  length (returned (forget ctl2) (map forget_call calls2)) = 9 /\
  raises (apply_call (forget ctl2) (CIter (forget_array (hp (q 1 1) (q 0 1))))) = Some RuntimeError.
Proof.
  split; [apply like_refl|]. split; [|repeat split; vm].
  repeat constructor.
Qed.
(** In standard mode the editor looks at contents, as documented: the conclusion needs the silent mode. *)
Example C73_standard_looks : like_array (hp (q 1 2) (q 1 2)) (hp (q 2 1) (q 0 1)) /\
  raises (set_probabilities (mkEd ctl2 m_standard) (hp (q 1 2) (q 1 2))) = None /\
  raises (set_probabilities (mkEd ctl2 m_standard) (hp (q 2 1) (q 0 1))) = Some JaxRuntimeError /\
  raises (set_probabilities (mkEd ctl2 m_silence) (hp (q 2 1) (q 0 1))) = None.
Proof. split; [split; reflexivity|]. repeat split; vm. Qed.

(** ** C74 *)
(** A layer whose methods do not look into arrays: execute_act on initial states alike in all but
    contents, with any two depression constants and iteration bounds, ends with the same exception or
    with like results, however many iterations either run takes. *)
Theorem C74_execute_act {N M} (l : layer N) (l' : layer M) u u' dep dep' bound bound' check :
  like_layer l l' -> like_tree u u' ->
  same_outcome (fun p p' => like (fst p) (fst p') /\ like_tree (snd p) (snd p'))
    (execute_act l u dep bound check) (execute_act l' u' dep' bound' check).
Proof. intros L U. exact (rr_execute l l' L u u' dep dep' bound bound' check U). Qed.
Print Assumptions C74_execute_act.
(** So it fails before the first iteration or not at all: an exception is also raised with no iteration
    allowed, and if that run returns every run returns. *)
Theorem C74_fails_at_once_or_never {N} (l : layer N) u dep bound check : traceable l ->
  (forall e, execute_act l u dep bound check = Err e <-> execute_act l u dep 0 check = Err e) /\
  (forall c v, execute_act l u dep 0 check = Ok (c, v) ->
     exists c' v', execute_act l u dep bound check = Ok (c', v') /\ like c' c /\ like_tree v' v).
Proof.
  intros L. pose proof (C74_execute_act l l u u dep dep bound 0 check L (like_tree_refl u)) as R.
  destruct (execute_act l u dep bound check) as [[c' v']|e'], (execute_act l u dep 0 check) as [[c v]|e]; cbn in R; try contradiction.
  - split; [intros; split; discriminate|]. intros ? ? [= <- <-]. exists c', v'. tauto.
  - subst e'. split; [reflexivity|discriminate].
Qed.
Print Assumptions C74_fails_at_once_or_never.
(** Docstring layers do not look into arrays if the three functions they are made from do not. *)
Theorem C74_docstring_layers {N M} (c0 : state N) (c0' : state M) next next' upd upd' halt halt' lazy lazy' :
  like c0 c0' ->
  (forall u u', like_tree u u' -> like_tree (next u) (next' u')) ->
  (forall u u', like_tree u u' -> like_dict (upd u) (upd' u')) ->
  (forall u u', like_tree u u' -> like_array (halt u) (halt' u')) ->
  (forall c c' u u', like c c' -> like_tree u u' -> same_outcome (fun _ _ => True) (lazy c u) (lazy' c' u')) ->
  like_layer (simple_layer c0 next upd halt lazy) (simple_layer c0' next' upd' halt' lazy').
Proof.
  intros C Hn Hu Hh Hl. constructor; cbn [l_make_controller l_run_iteration l_setup_lazy simple_layer].
  - intros u u' d d' U. exact C.
  - intros c c' u u' H U.
    assert (K : Forall2 like_call (simple_calls upd halt u) (simple_calls upd' halt' u')).
    { unfold simple_calls. apply Forall2_app; [|constructor; [exact (Hh _ _ U)|constructor]].
      induction (Hu _ _ U) as [|x y d d' [E T] D IH]; cbn; constructor; auto. split; assumption. }
    assert (R : same_outcome like (strictly c (simple_calls upd halt u)) (strictly c' (simple_calls upd' halt' u'))).
    { revert c c' H. induction K as [|x y k k' Hx K IH]; intros c c' H; cbn [strictly]; [exact H|].
      pose proof (rr_call _ _ _ _ H Hx) as R. destruct (apply_call c x), (apply_call c' y); cbn in R; try contradiction; [now apply IH|exact R]. }
    destruct (strictly c _), (strictly c' _); cbn in R; try contradiction; [|exact R].
    cbn. constructor; [exact R|]. constructor; [now apply Hn|constructor].
  - exact Hl.
Qed.
Print Assumptions C74_docstring_layers.
(** The sample layer is one; and a layer that looks (it raises once the first element has halted, which no
    jit would allow) fails midway, so the hypothesis is needed. *)
Lemma layU_traceable : traceable layU.
Proof.
  apply C74_docstring_layers; auto.
  - apply like_refl.
  - intros u u' _. unfold updU. repeat constructor.
  - intros u u' [E F]. destruct u as [a|n cs], u' as [a'|n' cs']; cbn in E; try discriminate; cbn [haltU]; [|apply like_array_refl].
    inversion F; assumption.
  - intros. exact I.
Qed.
Definition layPeek : layer QcNum :=
  mkLayer (l_make_controller layU) (fun c u => if is_any_halted c then Err ValueError else l_run_iteration layU c u) (fun _ _ => Ok tt).
Example C74_case : traceable layU /\
  answer (execute_act layU initU (q 1 1) 10 true) = Some true /\ answer (execute_act layU initU (q 1 1) 0 true) = Some false /\
  raises (execute_act layU (Leaf (arr [3] [q 0 1; q 0 1; q 0 1])) (q 1 1) 0 true) = Some ValueError /\
  raises (execute_act layU (Leaf (arr [3] [q 0 1; q 0 1; q 0 1])) (q 1 1) 10 true) = Some ValueError /\
  raises (execute_act layPeek initU (q 1 1) 0 true) = None /\ raises (execute_act layPeek initU (q 1 1) 10 true) = Some ValueError.
Proof. split; [exact layU_traceable|]. repeat split; vm. Qed.
