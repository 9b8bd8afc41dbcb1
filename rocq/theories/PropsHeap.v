(** * Objects, aliasing and immutability (C41, C42, C62). Vocabulary: HeapSpec.v. *)
From Coq Require Import QArith Qcanon.
From Verif Require Import Base PyTree Tensor Num Utils States Controller Builder Viewer Editor Wf
  Heap HeapSpec.
From Verif Require Import BaseFacts HeapFacts HeapFacts2 HeapFacts3 HeapFacts4 QcFacts Samples.
Close Scope Qc_scope. Close Scope Q_scope. Open Scope string_scope. Open Scope list_scope. Open Scope nat_scope.

Ltac vm := vm_compute; reflexivity.

(** ** C41 *)
(** No call of any history, returning or raising, modifies an object that existed before: not a
    dictionary, not a state object, not an instance. On any heap whatsoever. *)
Theorem C41_nothing_modified {N} (p : list loc) (h : heap N) (cs : list (hcall N)) es p' h' :
  heap_run p h cs = (es, p', h') ->
  forall l o, nth_error h l = Some o -> nth_error h' l = Some o.
Proof. apply run_frame. Qed.
Print Assumptions C41_nothing_modified.
(** So everything the user holds keeps its contents. *)
Theorem C41_contents_kept {N} (p : list loc) (h : heap N) (cs : list (hcall N)) es p' h' :
  heap_run p h cs = (es, p', h') ->
  forall l v, view h l = Some v -> view h' l = Some v.
Proof. intros Hr l v. apply kept_view. exact (run_frame _ _ _ _ _ _ Hr). Qed.
Print Assumptions C41_contents_kept.
(** Sharing of dictionaries between objects can never be noticed through the API: a history on the
    heap gives the exceptions and the objects that it gives on values without any sharing. *)
Theorem C41_sharing_is_invisible {N} (p : list loc) (h : heap N) (vs : list (pyval N))
  (cs : list (hcall N)) es p' h' es' vs' :
  Forall2 (fun l v => view h l = Some v) p vs ->
  heap_run p h cs = (es, p', h') -> pure_run vs cs = (es', vs') ->
  es = es' /\ Forall2 (fun l v => view h' l = Some v) p' vs'.
Proof.
  intros Hs Hr Hp. pose proof (sim_run h p vs cs Hs) as G. rewrite Hr, Hp in G. exact G.
Qed.
Print Assumptions C41_sharing_is_invisible.

(** A heap with a controller [ctl1] (location 4), and a second controller sharing its state. *)
Definition heap1 : heap QcNum :=
  [ ODict (N := QcNum) (defaults ctl1); ODict (N := QcNum) (accumulators ctl1);
    ODict (N := QcNum) (updates ctl1);
    OState (N := QcNum) (mkH (N := QcNum) (epsilon ctl1) (iterations ctl1) (residuals ctl1)
      (probabilities ctl1) 0 1 2 (depression_constant ctl1) (error_mode ctl1));
    OInst (N := QcNum) KController [("_is_immutable", VBool true); ("state", VRef 3)];
    OInst (N := QcNum) KController [("_is_immutable", VBool true); ("state", VRef 3)] ].
Lemma heap1_view : view heap1 4 = Some (PController ctl1) /\ view heap1 5 = Some (PController ctl1).
Proof. split; reflexivity. Qed.
(** Controllers, viewers, editors, saves; calls that raise in between (an update set twice, a method
    the class does not have, a pending update at a reset, an unknown object). *)
Definition hist1 : list (hcall QcNum) :=
  [ On (N := QcNum) 0 (MCache "x" (u_x 1 2 3 4)); On (N := QcNum) 2 (MCache "x" (u_x 1 2 3 4));
    On (N := QcNum) 2 (MIter (hp (q 1 1) (q 1 2))); On (N := QcNum) 3 MReset;
    On (N := QcNum) 2 MReset; On (N := QcNum) 3 MMakeViewer; On (N := QcNum) 5 MHalted;
    On (N := QcNum) 5 MReset; On (N := QcNum) 1 (MEditController "standard");
    On (N := QcNum) 7 (MSetAccumulator "x" t_x); On (N := QcNum) 8 MBuild; On (N := QcNum) 9 MSave;
    On (N := QcNum) 10 MLoadController; On (N := QcNum) 77 MSave; On (N := QcNum) 4 MRoundTrip;
    NewBuilder (N := QcNum) None (BInt 2) None (q 1 10) (q 1 1);
    NewBuilder (N := QcNum) (Some None) (BInt 2) None (q 1 10) (q 1 1);
    On (N := QcNum) 13 (MDefine "x" t_x); On (N := QcNum) 14 MBuild ].
Example C41_case :
  Forall2 (fun l v => view heap1 l = Some v) [4; 5] [PController ctl1; PController ctl1] /\
  fst (fst (heap_run [4; 5] heap1 hist1)) =
    [None; Some RuntimeError; None; None; Some RuntimeError; None; None; Some AttributeError; None;
     None; None; None; None; Some NameError; None; Some TypeError; None; None; None] /\
  length (snd (fst (heap_run [4; 5] heap1 hist1))) = 16.
Proof. split; [repeat constructor|]. split; vm. Qed.

(** ** C42 *)
(** The whole property is false: the attribute [_is_immutable] itself can be assigned, and after
    that the controller can be turned into any other one. *)
Theorem C42_refuted {N} (h : heap N) (l : loc) (s : state N) (l' : loc) (s' : state N) :
  view h l = Some (PController s) -> view h l' = Some (PState s') ->
  exists h', assignments h [(l, "_is_immutable", VBool false); (l, "state", VRef l')] = ([None; None], h') /\
    view h' l = Some (PController s').
Proof.
  intros Hv Hv'. destruct (view_inv _ _ _ Hv) as (at_ & ls & x & H).
  destruct (view_inv _ _ _ Hv') as (x' & _ & Hs').
  pose proof (rc_inst _ _ _ _ _ _ _ H) as Hi. cbn [assignments].
  change "_is_immutable" with a_flag. rewrite (setattr_flag _ _ _ _ _ Hi).
  change "state" with a_state.
  rewrite (setattr_open _ l KController (dset a_flag (VBool false) at_) a_state (VRef l')
             (put_same _ _ _ _ Hi) (dget_dset_eq _ _ _) eq_refl).
  eexists. split; [reflexivity|]. rewrite put_put. unfold view.
  rewrite (put_same _ _ _ _ Hi). change "state" with a_state.
  rewrite dget_dset_eq, (put_inst_view_state h l KController KController at_) by exact Hi.
  now rewrite Hs'.
Qed.
Print Assumptions C42_refuted.
(** Deleting is not guarded either: after [del controller.state] every method fails. *)
Theorem C42_refuted_delete {N} (h : heap N) (l : loc) (k : cls) (attrs : dict attr) (v : attr) :
  nth_error h l = Some (OInst k attrs) -> NoDup (dkeys attrs) -> dget "state" attrs = Some v ->
  exists h', delattr l "state" h = (Ok tt, h') /\ view h' l = None /\
    forall name item, k = KController -> heap_call (MCache name item) l h' = (Err AttributeError, h').
Proof.
  intros E Hn Hs. exists (put h l (OInst k (ddel "state" attrs))).
  assert (Hm : dmem "state" attrs = true) by (unfold dmem; now rewrite Hs).
  assert (Hd : dget "state" (ddel "state" attrs) = None).
  { rewrite dget_ddel by exact Hn. now rewrite String.eqb_refl. }
  split; [|split].
  - rewrite (run_delattr _ _ _ _ _ E). now rewrite Hm.
  - unfold view. rewrite (put_same _ _ _ _ E). now rewrite Hd.
  - intros name item ->. unfold heap_call. rewrite run_bind, run_read, (put_same _ _ _ _ E).
    unfold h_cache_update, self_state. rewrite !run_bind, (read_inst_ok _ _ _ _ (put_same _ _ _ _ E)).
    change a_state with "state". now rewrite Hd.
Qed.
Print Assumptions C42_refuted_delete.
(** What holds: every assignment to any other attribute, in any sequence and mixed with any calls of
    the API, raises AttributeError and changes nothing. *)
Theorem C42_partial {N} (p : list loc) (h : heap N) (cs : list (hcall N)) es p' h'
  (xs : list (loc * string * attr)) :
  constructed h -> heap_run p h cs = (es, p', h') ->
  (forall l key v, In (l, key, v) xs ->
     key <> "_is_immutable" /\ exists k attrs, nth_error h' l = Some (OInst k attrs)) ->
  assignments h' xs = (map (fun _ => Some AttributeError) xs, h') /\ constructed h'.
Proof.
  intros Hc Hr Hx. apply (proj1 (constructed_locked h)) in Hc.
  assert (Hc' := proj2 (constructed_locked h') (run_locked _ _ _ _ _ _ Hr Hc)).
  split; [|exact Hc']. induction xs as [|[[l key] v] xs IH]; [reflexivity|]. cbn [assignments map].
  destruct (Hx l key v (or_introl eq_refl)) as (Hk & k & attrs & Hi).
  rewrite (setattr_locked h' l k attrs key v Hi (Hc' l k attrs Hi) Hk).
  rewrite IH; [reflexivity|]. intros l0 key0 v0 H0. apply (Hx l0 key0 v0). now right.
Qed.
Print Assumptions C42_partial.
(** In any state of the flag, exactly the assignments [accepts] describes are carried out; all others raise
    AttributeError and change nothing. *)
Lemma truthy_iff {N} (h : heap N) v : truth h v = true <-> counts_as_true h v.
Proof.
  split.
  - destruct v as [[]|[|c s]|l]; cbn; intros E; try discriminate; [constructor|constructor|].
    destruct (nth_error h l) as [[[|e d]|x|k at_]|] eqn:E2; try discriminate; try (eapply true_dict; exact E2);
      apply true_object; intros d'; rewrite E2; discriminate.
  - intros [|c s|l e d E|l H]; cbn; auto; [now rewrite E|].
    destruct (nth_error h l) as [[[|e d]|x|k at_]|] eqn:E2; auto. now destruct (H []).
Qed.
Theorem C42_partial_assignment {N} (h : heap N) (l : loc) (k : cls) (attrs : dict attr) (key : string) (v : attr) :
  nth_error h l = Some (OInst k attrs) ->
  (accepts h k attrs key -> exists attrs', setattr l key v h = (Ok tt, put h l (OInst k attrs')) /\
     dget key attrs' = Some v /\ forall key', key' <> key -> dget key' attrs' = dget key' attrs) /\
  (~ accepts h k attrs key -> setattr l key v h = (Err AttributeError, h)).
Proof.
  intros E. unfold accepts. rewrite (run_setattr _ _ _ _ _ _ E). change "_is_immutable" with a_flag.
  assert (P : existsb (String.eqb key) (properties k) = true <-> In key (properties k)).
  { rewrite existsb_exists. split; [intros (x & Hx & Ex); apply String.eqb_eq in Ex; now subst|intros Hx; exists key; split; [exact Hx|apply String.eqb_refl]]. }
  assert (F : match dget a_flag attrs with Some v => truth h v | None => false end = true <->
              ~ (forall v, dget a_flag attrs = Some v -> ~ counts_as_true h v)).
  { destruct (dget a_flag attrs) as [w|]; split.
    - intros T H. apply (H w eq_refl). now apply truthy_iff.
    - intros H. destruct (truth h w) eqn:T; [reflexivity|]. exfalso. apply H. intros v' [= <-] C.
      apply truthy_iff in C. congruence.
    - discriminate.
    - intros H. exfalso. apply H. discriminate. }
  destruct (String.eqb_spec key a_flag) as [K|K], (existsb (String.eqb key) (properties k)) eqn:X;
    cbn [negb]; rewrite ?andb_false_r, ?andb_true_r.
  - split; [|reflexivity]. intros (A & _). exfalso. apply A. now apply P.
  - split.
    + intros _. eexists. split; [reflexivity|]. split; [apply dget_dset_eq|]. intros key' H. now apply dget_dset_neq.
    + intros H. exfalso. apply H. split; [|now left]. intros I. apply P in I. discriminate.
  - split; [|intros _; now destruct (match dget a_flag attrs with Some v => truth h v | None => false end)].
    intros (A & _). exfalso. apply A. now apply P.
  - destruct (match dget a_flag attrs with Some v => truth h v | None => false end) eqn:T.
    + split; [|reflexivity]. intros (_ & [A|A]); [contradiction|]. exfalso. now apply (proj1 F eq_refl).
    + split.
      * intros _. eexists. split; [reflexivity|]. split; [apply dget_dset_eq|]. intros key' H. now apply dget_dset_neq.
      * intros H. exfalso. apply H. split; [intros I; apply P in I; discriminate|]. right. intros w Hw C.
        rewrite Hw in T. apply truthy_iff in C. congruence.
Qed.
Print Assumptions C42_partial_assignment.
(** Deletion removes the attribute if the object has it, whatever the flag, and raises AttributeError otherwise.
    An editor that lost its error mode refuses every setter. *)
Theorem C42_partial_deletion {N} (h : heap N) (l : loc) (k : cls) (attrs : dict attr) (key : string) :
  nth_error h l = Some (OInst k attrs) -> NoDup (dkeys attrs) ->
  (dget key attrs = None -> delattr l key h = (Err AttributeError, h)) /\
  (dget key attrs <> None -> exists attrs', delattr l key h = (Ok tt, put h l (OInst k attrs')) /\
     dget key attrs' = None /\ forall key', key' <> key -> dget key' attrs' = dget key' attrs) /\
  (k = KEditor -> dget "error_mode" attrs = None -> forall m, setter m -> heap_call m l h = (Err AttributeError, h)).
Proof.
  intros E ND. split; [|split].
  - intros H. rewrite (run_delattr _ _ _ _ _ E). unfold dmem. now rewrite H.
  - intros H. exists (ddel key attrs). split; [|split].
    + rewrite (run_delattr _ _ _ _ _ E). unfold dmem. now destruct (dget key attrs).
    + rewrite dget_ddel by exact ND. now rewrite String.eqb_refl.
    + intros key' Hk. rewrite dget_ddel by exact ND. now rewrite (proj2 (String.eqb_neq _ _) Hk).
  - intros -> H m Hm. assert (S : self_mode l h = (Err AttributeError, h)).
    { unfold self_mode. rewrite run_bind, (read_inst_ok _ _ _ _ E). change a_error_mode with "error_mode". now rewrite H. }
    destruct Hm; unfold heap_call; rewrite run_bind, run_read, E; cbv beta iota;
      unfold h_set_probabilities, h_set_residuals, h_set_iterations, h_set_epsilon, h_set_accumulator, h_set_defaults, h_set_updates,
        h_execute_checks; rewrite !run_bind; now rewrite S.
Qed.
Print Assumptions C42_partial_deletion.
Definition heap2 : heap QcNum := snd (heap_run [4; 5] heap1 hist1).
Example C42_case :
  constructed heap1 /\
  fst (assignments heap2 [(4, "probabilities", VBool true); (8, "state", VRef 3); (4, "state", VRef 8);
                          (4, "anything", VStr "")]) =
    [Some AttributeError; Some AttributeError; Some AttributeError; Some AttributeError] /\
  view heap1 4 = Some (PController ctl1) /\ view heap1 3 = Some (PState ctl1).
Proof.
  split; [|split; [vm | split; reflexivity]].
  intros l k attrs E. repeat (destruct l as [|l]; try discriminate E); injection E as <- <-; reflexivity.
Qed.

(** an empty text or dictionary as flag opens the object, a non-empty one does not; a property name is refused anyway *)
Example C42_assignment_case :
  let at_ v := [("_is_immutable", v); ("state", VRef 3)] in
  accepts heap1 KController (at_ (VStr "")) "state" /\ ~ accepts heap1 KController (at_ (VStr "no")) "state" /\
  accepts heap1 KController (at_ (VRef 4)) "_is_immutable" /\ ~ accepts heap1 KController (at_ (VRef 1)) "state" /\
  ~ accepts heap1 KController (at_ (VBool false)) "residuals" /\
  fst (assignments heap1 [(4, "_is_immutable", VRef 1); (4, "state", VRef 3); (4, "_is_immutable", VStr ""); (4, "state", VRef 3);
                          (4, "residuals", VRef 3)]) = [None; Some AttributeError; None; None; Some AttributeError] /\
  fst (delattr 4 "nothing" heap1) = Err AttributeError.
Proof.
  assert (P : ~ In "state" (properties KController)) by (cbn; intuition discriminate).
  cbv zeta. split; [|split; [|split; [|split; [|split; [|split]]]]].
  - split; [exact P|]. right. intros v [= <-] H. inversion H.
  - intros (_ & [H|H]); [discriminate|]. apply (H _ eq_refl). constructor.
  - split; [cbn; intuition discriminate|]. left. reflexivity.
  - intros (_ & [H|H]); [discriminate|]. apply (H _ eq_refl). eapply true_dict. reflexivity.
  - intros (H & _). apply H. cbn. auto.
  - vm.
  - vm.
Qed.

(** ** C62 *)
(** The whole property is false: after [c2 = c.cache_update(...)] the two controllers share the
    dictionary [c2.accumulators] returns, so an assignment through the new one changes the old one. *)
Theorem C62_refuted {N} (h : heap N) (l : loc) (s s' : state N) name item k v :
  view h l = Some (PController s) -> cache_update s name item = Ok s' ->
  exists l' h1 h2 s2,
    heap_call (MCache name item) l h = (Ok l', h1) /\ l' <> l /\
    view h1 l = Some (PController s) /\
    assign_item h_accumulators l' k v h1 = (Ok tt, h2) /\
    view h2 l = Some (PController s2) /\ accumulators s2 = dset k v (accumulators s).
Proof.
  intros Hv Hc. destruct (view_inv _ _ _ Hv) as (at_ & ls & x & H).
  destruct (lands_cache _ _ _ _ _ _ _ _ _ H Hc)
    as (h0 & x' & dfs & accs & upds & E & Hk & D1 & D2 & D3 & P1 & P2 & P3).
  destruct (receiver_new h0 KController x' dfs accs upds D1 D2 D3) as (at' & sr & Hr').
  pose proof (receiver_kept h _ _ _ _ _ _ _ (kept_app_r _ _ _ (kept_app_r _ _ [OState x'] Hk)) H
              : receiver ((h0 ++ [OState x']) ++
                          [OInst KController [(a_flag, VBool true); (a_state, VRef (length h0))]])
                         l KController at_ ls x s) as Hr.
  rewrite P2 in D2.
  assert (Da : view_dict ((h0 ++ [OState x']) ++
                          [OInst KController [(a_flag, VBool true); (a_state, VRef (length h0))]])
                         (h_accumulators x') = Some (accumulators s)).
  { rewrite P2. apply (rc_accumulators _ _ _ _ _ _ _ Hr). }
  destruct (receiver_put_dict _ _ _ _ _ _ _ _ _ (dset k v (accumulators s)) Hr Da)
    as (s2 & Hr2 & _ & A2 & _).
  exists (length (h0 ++ [OState x'])). eexists. eexists. exists s2.
  split; [|split; [|split; [|split; [|split]]]].
  - unfold heap_call. rewrite (mbind_ok _ _ _ (OInst KController at_) h).
    + exact E.
    + rewrite run_read. now rewrite (rc_inst _ _ _ _ _ _ _ H).
  - intros El. pose proof (rc_inst _ _ _ _ _ _ _ H) as Hi. apply Hk in Hi.
    assert (l < length h0) by (apply nth_error_Some; congruence).
    rewrite app_length in El. lia.
  - eapply view_receiver; [exact Hr | reflexivity].
  - eapply assign_item_ok; [exact Hr' | exact Da].
  - eapply view_receiver; [exact Hr2 | reflexivity].
  - rewrite A2. rewrite P2 in *. destruct (Nat.eq_dec _ _); [reflexivity | contradiction].
Qed.
Print Assumptions C62_refuted.
(** [save] returns the internal state object, and the class is not frozen. *)
Theorem C62_refuted_save {N} (h : heap N) (l : loc) (s : state N) (e : scl N) :
  view h l = Some (PController s) ->
  exists h2 s2, assign_epsilon l e h = (Ok tt, h2) /\ view h2 l = Some (PController s2) /\ epsilon s2 = e.
Proof.
  intros Hv. destruct (view_inv _ _ _ Hv) as (at_ & ls & x & H).
  unfold assign_epsilon, h_save. erewrite mbind_ok by (eapply rcv_self_state; exact H).
  erewrite mbind_ok by (eapply rcv_read_state; exact H). unfold write.
  pose proof (rc_state _ _ _ _ _ _ _ H) as Hs. pose proof (rc_inst _ _ _ _ _ _ _ H) as Hi.
  assert (Hne : ls <> l) by congruence.
  assert (Hd : forall o ld d, view_dict h ld = Some d -> view_dict (put h ls o) ld = Some d).
  { intros o ld d E. unfold view_dict in *. rewrite put_other; [exact E|]. intros <-. rewrite Hs in E. discriminate. }
  eexists. eexists. split; [reflexivity|]. unfold view. rewrite put_other by exact Hne. rewrite Hi.
  change "state" with a_state. rewrite (rc_ref _ _ _ _ _ _ _ H). unfold view_state.
  rewrite (put_same _ _ _ _ Hs). cbn [h_defaults h_accumulators h_updates].
  rewrite (Hd _ _ _ (rc_defaults _ _ _ _ _ _ _ H)), (Hd _ _ _ (rc_accumulators _ _ _ _ _ _ _ H)),
    (Hd _ _ _ (rc_updates _ _ _ _ _ _ _ H)). split; reflexivity.
Qed.
Print Assumptions C62_refuted_save.
(** What holds: the result of [iterate_act] does not share its accumulators or updates, that of
    [reset_batches] not its accumulators, and that of a viewer's [transform] and of a builder's
    definition nothing; assigning into those dictionaries changes no older object. *)
Theorem C62_partial {N} (h : heap N) (l : loc) (m : method N) (l' : loc) (h1 : heap N)
  (field : hstate N -> loc) (k : string) (v : tree (array N)) :
  (exists a, view h l = Some a) ->
  heap_call m l h = (Ok l', h1) ->
  match m with
  | MIter _ => field = h_accumulators \/ field = h_updates
  | MReset => field = h_accumulators
  | MTransform _ | MDefine _ _ => field = h_accumulators \/ field = h_defaults \/ field = h_updates
  | MCache _ _ => field = h_updates
  | _ => False
  end ->
  exists h2, assign_item field l' k v h1 = (Ok tt, h2) /\
    forall l0 o, nth_error h l0 = Some o -> nth_error h2 l0 = Some o.
Proof.
  intros [a Hv] Hc Hm.
  assert (G : exists kk, lands h (Ok l', h1) kk (fun x => length h <= field x)).
  { pose proof (sim_call h l a m Hv) as Hs. rewrite Hc in Hs.
    destruct (pure_call m a) as [b|e] eqn:Ep; [|discriminate Hs]. clear Hs.
    apply view_inv in Hv.
    destruct m; try contradiction; destruct a as [s|s|s|ed|s]; try discriminate Ep;
      destruct Hv as (at_ & ls & x & H);
      unfold heap_call in Hc;
      rewrite (mbind_ok _ _ _ (OInst _ at_) h) in Hc
        by (rewrite run_read, (rc_inst _ _ _ _ _ _ _ H); reflexivity);
      rewrite <- Hc; eexists.
    - cbn [pure_call] in Ep. destruct (cache_update s name item) eqn:E; [|discriminate].
      destruct (lands_cache _ _ _ _ _ _ _ _ _ H E) as (h0 & x' & d1 & d2 & d3 & Q0 & Q1 & Q2 & Q3 & Q4 & Q5).
      exists h0, x', d1, d2, d3. subst field. split; [exact Q0|]. tauto.
    - cbn [pure_call] in Ep. destruct (iterate_act s p) eqn:E; [|discriminate].
      destruct (lands_iterate _ _ _ _ _ _ _ _ H E) as (h0 & x' & d1 & d2 & d3 & Q0 & Q1 & Q2 & Q3 & Q4 & Q5).
      exists h0, x', d1, d2, d3. split; [exact Q0|]. destruct Hm; subst field; tauto.
    - cbn [pure_call] in Ep. destruct (reset_batches s) eqn:E; [|discriminate].
      destruct (lands_reset _ _ _ _ _ _ _ H E) as (h0 & x' & d1 & d2 & d3 & Q0 & Q1 & Q2 & Q3 & Q4 & Q5).
      exists h0, x', d1, d2, d3. subst field. split; [exact Q0|]. tauto.
    - cbn [pure_call] in Ep. destruct (transform s f) eqn:E; [|discriminate].
      destruct (lands_transform _ _ _ _ _ _ _ _ H E) as (h0 & x' & d1 & d2 & d3 & Q0 & Q1 & Q2 & Q3 & Q4 & Q5).
      exists h0, x', d1, d2, d3. split; [exact Q0|]. destruct Hm as [Hm|[Hm|Hm]]; subst field; tauto.
    - cbn [pure_call] in Ep. unfold define_directly in Ep. destruct (define s name t) eqn:E; [|discriminate].
      destruct (lands_define _ _ _ _ _ _ _ _ _ H E) as (h0 & x' & d1 & d2 & d3 & Q0 & Q1 & Q2 & Q3 & Q4 & Q5).
      exists h0, x', d1, d2, d3. split; [exact Q0|]. destruct Hm as [Hm|[Hm|Hm]]; subst field; tauto. }
  destruct G as (kk & h0 & x' & d1 & d2 & d3 & E & Hk & D1 & D2 & D3 & P).
  injection E as -> ->.
  destruct (receiver_new h0 kk x' d1 d2 d3 D1 D2 D3) as (at' & sr & Hr').
  eapply assign_outside; [exact Hr' | | exact P |].
  - apply kept_app_r, kept_app_r, Hk.
  - destruct m; try contradiction;
      repeat match type of Hm with _ \/ _ => destruct Hm as [Hm|Hm] end; subst field;
      eexists; apply view_dict_app, view_dict_app; eassumption.
Qed.
Print Assumptions C62_partial.
Definition acc_keys (h : heap QcNum) (l : loc) : list string :=
  match view h l with Some (PController s) => dkeys (accumulators s) | _ => [] end.
Example C62_case :
  view heap1 4 = Some (PController ctl1) /\
  outcome (fst (heap_call (MCache "x" (u_x 1 2 3 4)) 4 heap1)) = None /\
  (* the new controller is at location 8; assigning through it adds a key to the old one at 4 *)
  acc_keys (snd (assign_item h_accumulators 8 "new" t_x
             (snd (heap_call (MCache "x" (u_x 1 2 3 4)) 4 heap1)))) 4 = ["x"; "new"].
Proof. split; [reflexivity|]. split; vm. Qed.

(** ** C57 over references *)
(** [replace] on state objects does what [replace] on values does: the same exception and nothing changed, or a
    new state object, with nothing that was there changed. *)
Theorem C57_replace_objects {N} (h : heap N) (l : loc) (s : state N) (r : hreplace_args N) (r' : replace_args N) :
  view_state h l = Some s -> same_arguments h r r' ->
  match replace s r' with
  | Ok s' => exists o, hreplace l r h = (Ok (length h), h ++ [o]) /\ view_state (h ++ [o]) (length h) = Some s'
  | Err e => hreplace l r h = (Err e, h)
  end.
Proof.
  intros V SA. destruct r as [e i r p a d u dep m], r' as [e' i' r' p' a' d' u' dep' m'].
  destruct SA as [A1 A2 A3 A4 A5 A6 A7 A8 A9].
  cbn [r_epsilon r_iterations r_residuals r_probabilities r_accumulators r_defaults r_updates r_depression_constant r_error_mode
       hr_epsilon hr_iterations hr_residuals hr_probabilities hr_accumulators hr_defaults hr_updates hr_depression_constant hr_error_mode] in *.
  subst e' i' r' p' dep' m'.
  unfold view_state in V. destruct (nth_error h l) as [[|x|]|] eqn:E; try discriminate.
  destruct (view_dict h (h_defaults x)) as [dd|] eqn:Ed; [|discriminate].
  destruct (view_dict h (h_accumulators x)) as [da|] eqn:Ea; [|discriminate].
  destruct (view_dict h (h_updates x)) as [du|] eqn:Eu; [|discriminate]. injection V as <-.
  unfold replace, hreplace. rewrite run_bind, (read_state_ok _ _ _ E), run_bind.
  cbn [ret hr_depression_constant hr_error_mode r_depression_constant r_error_mode].
  destruct dep as [x0|]; [reflexivity|]. destruct m as [m|]; [reflexivity|]. cbn [bind ret].
  eexists. split; [reflexivity|]. unfold view_state. rewrite nth_error_app2, Nat.sub_diag by lia. cbn [nth_error].
  cbn [h_defaults h_accumulators h_updates h_epsilon h_iterations h_residuals h_probabilities h_depression_constant h_error_mode
       hr_epsilon hr_iterations hr_residuals hr_probabilities hr_accumulators hr_defaults hr_updates
       r_epsilon r_iterations r_residuals r_probabilities r_accumulators r_defaults r_updates
       epsilon iterations residuals probabilities defaults accumulators updates depression_constant error_mode].
  assert (G : forall l0 d0 o, view_dict h l0 = Some d0 -> view_dict (h ++ [o]) l0 = Some d0).
  { intros l0 d0 o H. unfold view_dict in *. rewrite nth_error_app1; [exact H|]. apply nth_error_Some. intros H2. rewrite H2 in H. discriminate. }
  assert (L : forall o o' l0 d0 ob, looked_up h o o' -> view_dict h l0 = Some d0 -> view_dict (h ++ [ob]) (default o l0) = Some (default o' d0)).
  { intros [l1|] [d1|] l0 d0 ob H1 H2; cbn in *; try contradiction; now apply G. }
  rewrite (L _ _ _ _ _ A6 Ed), (L _ _ _ _ _ A5 Ea), (L _ _ _ _ _ A7 Eu). reflexivity.
Qed.
Print Assumptions C57_replace_objects.
Example C57_objects_case : view_state heap1 3 = Some ctl1 /\
  same_arguments heap1 (mkHR (N := QcNum) (Some (q 1 2)) None None None (Some 1) None None None None)
    (mkR (N := QcNum) (Some (q 1 2)) None None None (Some (default (view_dict heap1 1) [])) None None None None).
Proof. split; [reflexivity|]. constructor; try reflexivity; exact I. Qed.
