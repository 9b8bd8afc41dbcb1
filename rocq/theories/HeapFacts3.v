(** * Simulation: method by method, then over histories *)
From Verif Require Import Base PyTree Tensor Num Utils States Controller Builder Viewer Editor
  Heap HeapSpec HeapFacts HeapFacts2.

Section HeapFacts3.
  Context {N : numsys}.
  Notation st := (state N).
  Notation tr := (tree (array N)).
  Notation heap := (heap N).

  Lemma receiver_app (h t : heap) l k at_ ls x s :
    receiver h l k at_ ls x s -> receiver (h ++ t) l k at_ ls x s.
  Proof.
    intros [H1 H2 H3 H4 H5 H6 H7 H8].
    constructor; auto using nth_app, view_state_app, view_dict_app.
  Qed.
  Lemma receiver_of (h : heap) l k at_ ls s :
    nth_error h l = Some (OInst k at_) -> dget a_state at_ = Some (VRef ls) ->
    view_state h ls = Some s -> exists x, receiver h l k at_ ls x s.
  Proof.
    intros E1 E2 E3.
    destruct (view_state_inv _ _ _ E3) as (x & E0 & F1 & F2 & F3 & F4 & F5 & F6 & F7 & F8 & F9).
    exists x. constructor; auto. rewrite F4, F5, F6, F7, F8, F9. now destruct s.
  Qed.

  Lemma view_dict_at (h : heap) l d : l = length h -> view_dict (h ++ [ODict d]) l = Some d.
  Proof. intros ->. apply view_dict_last. Qed.
  Lemma put_at (h : heap) l o o' : l = length h -> put (h ++ [o]) l o' = h ++ [o'].
  Proof. intros ->. apply put_last. Qed.
  Ltac len := solve [repeat rewrite app_length; simpl; lia].

  (** ** One statement of a method on a heap where everything read is known. *)
  Ltac vd :=
    solve [ repeat first [ eassumption
                         | match goal with
                           | H : receiver ?h _ _ _ _ ?x _ |- view_dict ?h (h_defaults ?x) = _ =>
                               exact (rc_defaults _ _ _ _ _ _ _ H)
                           | H : receiver ?h _ _ _ _ ?x _ |- view_dict ?h (h_accumulators ?x) = _ =>
                               exact (rc_accumulators _ _ _ _ _ _ _ H)
                           | H : receiver ?h _ _ _ _ ?x _ |- view_dict ?h (h_updates ?x) = _ =>
                               exact (rc_updates _ _ _ _ _ _ _ H)
                           end
                         | apply view_dict_last | apply view_dict_at; len | apply view_dict_app ] ].
  Ltac rcv :=
    match goal with
    | H : receiver ?h _ _ _ _ _ _ |- receiver ?h _ _ _ _ _ _ => exact H
    | |- receiver (_ ++ _) _ _ _ _ _ _ => apply receiver_app; rcv
    end.
  Lemma rcv_self_state (h : heap) l k at_ ls x s :
    receiver h l k at_ ls x s -> self_state l h = (Ok ls, h).
  Proof. intros H. eapply self_state_ok; [apply (rc_inst _ _ _ _ _ _ _ H) | apply (rc_ref _ _ _ _ _ _ _ H)]. Qed.
  Lemma rcv_read_state (h : heap) l k at_ ls x s :
    receiver h l k at_ ls x s -> read_state ls h = (Ok x, h).
  Proof. intros H. apply read_state_ok, (rc_state _ _ _ _ _ _ _ H). Qed.
  Lemma rcv_deref (h : heap) l k at_ ls x s :
    receiver h l k at_ ls x s -> deref ls h = (Ok s, h).
  Proof. intros H. apply deref_ok, (rc_view _ _ _ _ _ _ _ H). Qed.
  Lemma rcv_replace (h : heap) l k at_ ls x s r :
    receiver h l k at_ ls x s -> hr_depression_constant r = None -> hr_error_mode r = None ->
    hreplace ls r h =
      (Ok (length h),
       h ++ [OState (mkH (default (hr_epsilon r) (h_epsilon x))
                       (default (hr_iterations r) (h_iterations x))
                       (default (hr_residuals r) (h_residuals x))
                       (default (hr_probabilities r) (h_probabilities x))
                       (default (hr_defaults r) (h_defaults x))
                       (default (hr_accumulators r) (h_accumulators x))
                       (default (hr_updates r) (h_updates x))
                       (h_depression_constant x) (h_error_mode x))]).
  Proof. intros H. apply hreplace_ok, (rc_state _ _ _ _ _ _ _ H). Qed.

  Ltac one :=
    first
      [ rewrite mbind_lift
      | erewrite mbind_ok; [| solve [ eapply rcv_self_state; rcv ]]
      | erewrite mbind_ok; [| solve [ eapply rcv_read_state; rcv ]]
      | erewrite mbind_ok; [| solve [ eapply rcv_deref; rcv ]]
      | erewrite mbind_ok; [| solve [ eapply rcv_replace; [rcv | reflexivity | reflexivity] ]]
      | erewrite mbind_ok; [| solve [ apply read_dict_ok; vd ]]
      | erewrite mbind_ok; [| solve [ apply dict_copy_ok; vd ]]
      | erewrite mbind_ok; [| solve [ apply dict_set_ok; vd ]]
      | match goal with
        | |- context [exec (mbind (alloc ?o) ?f) ?h] =>
            rewrite (mbind_ok (alloc o) f h (length h) (h ++ [o]) eq_refl)
        | |- context [exec (mbind dict_new ?f) ?h] =>
            rewrite (mbind_ok dict_new f h (length h) (h ++ [ODict []]) eq_refl)
        end ].
  Ltac puts :=
    repeat (first [ rewrite put_last | rewrite put_app_l by len | rewrite put_at by len ]).
  Ltac go := repeat (one; puts).
  (** Case on the pure computation both sides perform. *)
  Ltac both :=
    match goal with
    | |- agrees (match ?r with Ok _ => _ | Err _ => _ end) (fmap _ (bind ?r _)) =>
        destruct r; cbn [bind fmap]; [|reflexivity]
    end.
  Ltac fin H :=
    eapply agrees_instance; [apply view_state_last; cbn; vd | ];
    cbn [pv h_epsilon h_iterations h_residuals h_probabilities h_depression_constant h_error_mode
         default hr_epsilon hr_iterations hr_residuals hr_probabilities];
    f_equal; f_equal; rewrite (rc_eq _ _ _ _ _ _ _ H); reflexivity.

  (** ** Controller *)
  Lemma sim_cache (h : heap) l at_ ls x s name item :
    receiver h l KController at_ ls x s ->
    agrees (h_cache_update l name item h) (fmap PController (cache_update s name item)).
  Proof.
    intros H. unfold h_cache_update, cache_update. go.
    destruct (dget name (updates s)) as [pending|]; [|reflexivity].
    destruct (negb (is_none pending)); [reflexivity|]. go.
    cbn [replace bind fmap r_depression_constant r_error_mode default r_epsilon r_iterations
      r_residuals r_probabilities r_defaults r_accumulators r_updates].
    fin H.
  Qed.

  Lemma sim_iterate_loop (h : heap) l at_ ls x s p names a u :
    receiver h l KController at_ ls x s ->
    match iterate_loop s p names a u with
    | Ok (a', u') =>
        h_iterate_loop l p names (length h) (length (h ++ [ODict a]))
          ((h ++ [ODict a]) ++ [ODict u]) = (Ok tt, (h ++ [ODict a']) ++ [ODict u'])
    | Err e =>
        exists h', h_iterate_loop l p names (length h) (length (h ++ [ODict a]))
                     ((h ++ [ODict a]) ++ [ODict u]) = (Err e, h')
    end.
  Proof.
    intros H. revert a u. induction names as [|name names IH]; intros a u; [reflexivity|].
    cbn [iterate_loop h_iterate_loop].
    set (body := mrewrap _ _).
    assert (Hb : match rewrap RuntimeError (
                     acc <- dlookup name a ;;
                     upd <- dlookup name u ;;
                     _ <- guard (negb (is_none upd)) RuntimeError ;;
                     new_acc <- merge_pytrees (update_accumulator s p) acc upd ;;
                     Ok (dset name new_acc a, dset name tnone u)) with
                 | Ok (a', u') => body ((h ++ [ODict a]) ++ [ODict u])
                                  = (Ok tt, (h ++ [ODict a']) ++ [ODict u'])
                 | Err e => exists h', body ((h ++ [ODict a]) ++ [ODict u]) = (Err e, h')
                 end).
    { unfold body. rewrite run_rewrap. one. rewrite mbind_lift.
      destruct (dlookup name a) as [acc|e]; cbn [bind rewrap]; [|eexists; reflexivity].
      one. rewrite mbind_lift.
      destruct (dlookup name u) as [upd|e]; cbn [bind rewrap]; [|eexists; reflexivity].
      rewrite mbind_lift.
      destruct (guard _ _) as [[]|e]; cbn [bind rewrap]; [|eexists; reflexivity].
      one. one. rewrite mbind_lift.
      destruct (merge_pytrees _ acc upd) as [na|e]; cbn [bind rewrap]; [|eexists; reflexivity].
      one. puts.
      replace (length (h ++ [ODict a])) with (length (h ++ [ODict (dset name na a)])) by len.
      erewrite dict_set_ok by vd. now puts. }
    destruct (rewrap _ _) as [[a' u']|e]; cbn [bind].
    - erewrite mbind_ok by exact Hb. specialize (IH a' u').
      replace (length (h ++ [ODict a'])) with (length (h ++ [ODict a])) in IH by len. exact IH.
    - destruct Hb as [h' Hb]. exists h'. rewrite run_bind. now rewrite Hb.
  Qed.
  Lemma sim_iterate (h : heap) l at_ ls x s p :
    receiver h l KController at_ ls x s ->
    agrees (h_iterate_act l p h) (fmap PController (iterate_act s p)).
  Proof.
    intros H. unfold h_iterate_act, iterate_act. go. both. go. both. destruct a0 as [[hp r'] p'].
    go. pose proof (sim_iterate_loop h l at_ ls x s hp (dkeys (accumulators s))
                      (accumulators s) (updates s) H) as HL.
    destruct (iterate_loop s hp _ _ _) as [[a' u']|e]; cbn [bind fmap].
    - erewrite mbind_ok by exact HL. go. both.
      replace (length (h ++ [ODict (accumulators s)])) with (length (h ++ [ODict a'])) by len. go.
      cbn [replace bind fmap r_depression_constant r_error_mode default r_epsilon r_iterations
        r_residuals r_probabilities r_defaults r_accumulators r_updates].
      fin H.
    - destruct HL as [h' HL]. rewrite run_bind. rewrite HL. reflexivity.
  Qed.

  Lemma sim_reset_loop (h : heap) l at_ ls x s un names o :
    receiver h l KController at_ ls x s ->
    match reset_loop s un names o with
    | Ok o' => h_reset_loop l un names (length h) (h ++ [ODict o]) = (Ok tt, h ++ [ODict o'])
    | Err e => exists h', h_reset_loop l un names (length h) (h ++ [ODict o]) = (Err e, h')
    end.
  Proof.
    intros H. revert o. induction names as [|name names IH]; intros o; [reflexivity|].
    cbn [reset_loop h_reset_loop]. one. one. rewrite mbind_lift.
    destruct (dlookup name (accumulators s)) as [acc|e]; cbn [bind]; [|eexists; reflexivity].
    rewrite mbind_lift.
    destruct (dlookup name (defaults s)) as [def|e]; cbn [bind]; [|eexists; reflexivity].
    rewrite mbind_lift.
    destruct (merge_pytrees _ acc def) as [na|e]; cbn [bind]; [|eexists; reflexivity].
    one. puts. apply IH.
  Qed.
  Lemma sim_reset (h : heap) l at_ ls x s :
    receiver h l KController at_ ls x s ->
    agrees (h_reset_batches l h) (fmap PController (reset_batches s)).
  Proof.
    intros H. unfold h_reset_batches, reset_batches. go. both. cbv zeta. go. both. go. both. go. both.
    go. pose proof (sim_reset_loop h l at_ ls x s (tnot (halted_batches s))
                      (dkeys (accumulators s)) [] H) as HL.
    destruct (reset_loop _ _ _ _) as [o'|e]; cbn [bind fmap].
    - erewrite mbind_ok by exact HL. go.
      cbn [replace bind fmap r_depression_constant r_error_mode default r_epsilon r_iterations
        r_residuals r_probabilities r_defaults r_accumulators r_updates].
      fin H.
    - destruct HL as [h' HL]. rewrite run_bind. rewrite HL. reflexivity.
  Qed.
  Lemma sim_convert (h : heap) l k at_ ls x s k' v :
    receiver h l k at_ ls x s -> pv k' s = Some v -> agrees (h_convert k' l h) (Ok v).
  Proof.
    intros H Hv. unfold h_convert. go.
    eapply agrees_instance; [apply (rc_view _ _ _ _ _ _ _ H) | exact Hv].
  Qed.
  Lemma sim_save (h : heap) l k at_ ls x s :
    receiver h l k at_ ls x s -> agrees (h_save l h) (Ok (PState s)).
  Proof.
    intros H. unfold h_save. rewrite (rcv_self_state _ _ _ _ _ _ _ H). exists ls.
    split; [reflexivity|]. unfold view, snd. rewrite (rc_state _ _ _ _ _ _ _ H).
    now rewrite (rc_view _ _ _ _ _ _ _ H).
  Qed.

  (** ** Viewer *)
  Lemma sim_transform (h : heap) l at_ ls x s f :
    receiver h l KViewer at_ ls x s ->
    agrees (h_transform l f h) (fmap PViewer (transform s f)).
  Proof.
    intros H. unfold h_transform, transform. go. rewrite run_bind, run_rewrap. go.
    destruct (f (iterations s)) as [its|]; cbn [bind rewrap fmap]; [|reflexivity]. go.
    destruct (f (residuals s)) as [ress|]; cbn [bind rewrap fmap]; [|reflexivity]. go.
    destruct (f (probabilities s)) as [probs|]; cbn [bind rewrap fmap]; [|reflexivity]. go.
    destruct (dmapM _ (accumulators s)) as [da|]; cbn [bind rewrap fmap]; [|reflexivity]. go.
    destruct (dmapM _ (defaults s)) as [dd|]; cbn [bind rewrap fmap]; [|reflexivity]. go.
    unfold ret. cbn [exec]. go.
    cbn [replace bind fmap r_depression_constant r_error_mode default r_epsilon r_iterations
        r_residuals r_probabilities r_defaults r_accumulators r_updates].
    fin H.
  Qed.
  Lemma sim_mask (h : heap) l at_ ls x s d mk :
    receiver h l KViewer at_ ls x s ->
    agrees (h_mask_data l d mk h) (fmap PViewer (mask_data s d mk)).
  Proof.
    intros H. unfold h_mask_data, mask_data. go. both. go.
    replace (h_probabilities x) with (probabilities s)
      by (rewrite (rc_eq _ _ _ _ _ _ _ H); reflexivity).
    both. eapply sim_transform; exact H.
  Qed.
  Lemma sim_unhalted (h : heap) l at_ ls x s :
    receiver h l KViewer at_ ls x s ->
    agrees (h_unhalted_only l h) (fmap PViewer (unhalted_only s)).
  Proof. intros H. unfold h_unhalted_only. go. eapply sim_mask; exact H. Qed.
  Lemma sim_halted (h : heap) l at_ ls x s :
    receiver h l KViewer at_ ls x s ->
    agrees (h_halted_only l h) (fmap PViewer (halted_only s)).
  Proof. intros H. unfold h_halted_only. go. eapply sim_mask; exact H. Qed.

  (** ** Builder *)
  Lemma sim_define (h : heap) l at_ ls x s name t :
    receiver h l KBuilder at_ ls x s ->
    agrees (h_define l name t h) (fmap PBuilder (define s name t)).
  Proof.
    intros H. unfold h_define, define. go. both. go.
    cbn [replace bind fmap r_depression_constant r_error_mode default r_epsilon r_iterations
        r_residuals r_probabilities r_defaults r_accumulators r_updates].
    fin H.
  Qed.
  Lemma sim_define_by_shape (h : heap) l at_ ls x s name sh d fill :
    receiver h l KBuilder at_ ls x s ->
    agrees (h_define_by_shape l name sh d fill h) (fmap PBuilder (define_by_shape s name sh d fill)).
  Proof.
    intros H. unfold h_define_by_shape, define_by_shape. cbv zeta. go. both. go. both.
    eapply sim_define; exact H.
  Qed.
  Lemma sim_delete (h : heap) l at_ ls x s name :
    receiver h l KBuilder at_ ls x s ->
    agrees (h_delete_definition l name h) (fmap PBuilder (delete_definition s name)).
  Proof.
    intros H. unfold h_delete_definition, delete_definition. go.
    rewrite run_bind. erewrite dict_pop_ok by vd.
    destruct (dpop name (defaults s)); cbn [bind fmap]; [|reflexivity]. puts.
    rewrite run_bind. erewrite dict_pop_ok by vd.
    destruct (dpop name (accumulators s)); cbn [bind fmap]; [|reflexivity]. puts.
    rewrite run_bind. erewrite dict_pop_ok by vd.
    destruct (dpop name (updates s)); cbn [bind fmap]; [|reflexivity]. puts. go.
    cbn [replace bind fmap r_depression_constant r_error_mode default r_epsilon r_iterations
        r_residuals r_probabilities r_defaults r_accumulators r_updates].
    fin H.
  Qed.
  Lemma sim_new_builder (h : heap) em b d eps dep :
    agrees (h_new_builder em b d eps dep h) (fmap PBuilder (new_builder_with em b d eps dep)).
  Proof.
    unfold h_new_builder, new_builder_with. go. both. go. both. go. both. cbv zeta. go.
    destruct em as [m|]; [|reflexivity]. unfold act_states. cbn [fmap].
    match goal with |- context [exec (mbind (ret m) ?f) ?h] => rewrite (mbind_ok (ret m) f h m h eq_refl) end.
    go. eapply agrees_instance; [apply view_state_last; cbn; vd | reflexivity].
  Qed.

  (** ** Editor *)
  Lemma sim_checks (h : heap) l at_ ls x s m f {A} (k : unit -> M N A) :
    receiver h l KEditor at_ ls x s -> dget a_error_mode at_ = Some (VStr m) ->
    mbind (h_execute_checks l f) k h =
      match execute_checks (mkEd s m) (f s) with Ok _ => k tt h | Err e => (Err e, h) end.
  Proof.
    intros H Hm. rewrite run_bind. unfold h_execute_checks.
    erewrite mbind_ok; [|eapply self_mode_ok; [apply (rc_inst _ _ _ _ _ _ _ H) | exact Hm]].
    go. unfold lift. now destruct (execute_checks _ _) as [[]|].
  Qed.
  Ltac edset H Hm :=
    erewrite sim_checks by eassumption; cbv zeta; cbn [ed_state ed_mode]; both;
    unfold h_set_field; go;
    erewrite mbind_ok; [|eapply self_mode_ok;
      [ repeat apply nth_app; apply (rc_inst _ _ _ _ _ _ _ H) | exact Hm]];
    cbn [replace bind fmap r_depression_constant r_error_mode default r_epsilon r_iterations
        r_residuals r_probabilities r_defaults r_accumulators r_updates ed_state ed_mode];
    match goal with |- agrees _ (Ok (PEditor (mkEd ?s' _))) =>
      apply agrees_editor with (s := s') end;
    erewrite view_state_last by (cbn; vd);
    cbn [h_epsilon h_iterations h_residuals h_probabilities h_depression_constant h_error_mode
         default hr_epsilon hr_iterations hr_residuals hr_probabilities];
    f_equal; rewrite (rc_eq _ _ _ _ _ _ _ H); reflexivity.

  Section Ed.
    Context (h : heap) (l : loc) (at_ : dict attr) (ls : loc) (x : hstate N) (s : st) (m : string)
      (H : receiver h l KEditor at_ ls x s) (Hm : dget a_error_mode at_ = Some (VStr m)).
    Lemma sim_set_probabilities a :
      agrees (h_set_probabilities l a h) (fmap PEditor (set_probabilities (mkEd s m) a)).
    Proof. unfold h_set_probabilities, set_probabilities. edset H Hm. Qed.
    Lemma sim_set_residuals a :
      agrees (h_set_residuals l a h) (fmap PEditor (set_residuals (mkEd s m) a)).
    Proof. unfold h_set_residuals, set_residuals. edset H Hm. Qed.
    Lemma sim_set_iterations a :
      agrees (h_set_iterations l a h) (fmap PEditor (set_iterations (mkEd s m) a)).
    Proof. unfold h_set_iterations, set_iterations. edset H Hm. Qed.
    Lemma sim_set_epsilon e :
      agrees (h_set_epsilon l e h) (fmap PEditor (set_epsilon (mkEd s m) e)).
    Proof. unfold h_set_epsilon, set_epsilon. edset H Hm. Qed.
    Lemma sim_set_accumulator name t :
      agrees (h_set_accumulator l name t h) (fmap PEditor (set_accumulator (mkEd s m) name t)).
    Proof. unfold h_set_accumulator, set_accumulator. edset H Hm. Qed.
    Lemma sim_set_defaults name t :
      agrees (h_set_defaults l name t h) (fmap PEditor (set_defaults (mkEd s m) name t)).
    Proof. unfold h_set_defaults, set_defaults. edset H Hm. Qed.
    Lemma sim_set_updates name t :
      agrees (h_set_updates l name t h) (fmap PEditor (set_updates (mkEd s m) name t)).
    Proof. unfold h_set_updates, set_updates. edset H Hm. Qed.
  End Ed.

  (** ** Round trip *)
  Lemma sim_rebuild (h : heap) l k at_ ls x s (mk : loc -> M N loc) (v : st -> pyval N) :
    receiver h l k at_ ls x s ->
    (forall h' ls' s', view_state h' ls' = Some s' -> agrees (mk ls' h') (Ok (v s'))) ->
    agrees (h_rebuild mk l h)
      (fmap v (tree_unflatten_state (snd (tree_flatten_state s)) (fst (tree_flatten_state s)))).
  Proof.
    intros H Hmk. unfold h_rebuild. go. destruct (tree_flatten_state s) as [flat td]. cbn [fst snd].
    go. destruct (tree_unflatten_state td flat) as [s'|e]; [|reflexivity]. cbn [fmap]. go.
    apply Hmk. erewrite view_state_last by (cbn; vd). cbn. now destruct s'.
  Qed.

  (** ** Dispatch *)
  Lemma view_inv (h : heap) l v :
    view h l = Some v ->
    match v with
    | PState s => exists x, nth_error h l = Some (OState x) /\ view_state h l = Some s
    | PController s => exists at_ ls x, receiver h l KController at_ ls x s
    | PBuilder s => exists at_ ls x, receiver h l KBuilder at_ ls x s
    | PViewer s => exists at_ ls x, receiver h l KViewer at_ ls x s
    | PEditor e => exists at_ ls x, receiver h l KEditor at_ ls x (ed_state e) /\
                     dget a_error_mode at_ = Some (VStr (ed_mode e))
    end.
  Proof.
    intros Hv. unfold view in Hv. destruct (nth_error h l) as [[|x|k at_]|] eqn:E; try discriminate.
    - destruct (view_state h l) as [s|] eqn:Es; [|discriminate].
      injection Hv as <-. eauto.
    - change "state"%string with a_state in Hv. change "error_mode"%string with a_error_mode in Hv.
      destruct (dget a_state at_) as [[| |ls]|] eqn:Ea; try discriminate.
      destruct (view_state h ls) as [s|] eqn:Es; [|discriminate].
      destruct (receiver_of _ _ _ _ _ _ E Ea Es) as [x Hr].
      destruct k; try (injection Hv as <-; eauto).
      destruct (dget a_error_mode at_) as [[|m|]|] eqn:Em; try discriminate.
      injection Hv as <-. eauto.
  Qed.

  Lemma sim_call (h : heap) l v m :
    view h l = Some v -> agrees (heap_call m l h) (pure_call m v).
  Proof.
    intros Hv. apply view_inv in Hv. destruct v as [s|s|s|e|s].
    - destruct Hv as (at_ & ls & x & H).
      assert (E : forall f : obj N -> M N loc, mbind (read l) f h = f (OInst KController at_) h)
        by (intros f; apply mbind_ok; rewrite run_read; now rewrite (rc_inst _ _ _ _ _ _ _ H)).
      unfold heap_call. rewrite E. destruct m; cbn [pure_call]; try reflexivity.
      + eapply sim_cache; exact H.
      + eapply sim_iterate; exact H.
      + eapply sim_reset; exact H.
      + eapply sim_convert; [exact H | reflexivity].
      + eapply sim_save; exact H.
      + unfold h_edit_controller, edit_controller. rewrite mbind_lift.
        destruct (guard _ _) as [[]|]; cbn [bind fmap]; [|reflexivity].
        erewrite mbind_ok by (eapply rcv_self_state; exact H).
        apply agrees_editor, (rc_view _ _ _ _ _ _ _ H).
      + assert (G := sim_rebuild h l KController at_ ls x s (new_instance KController) PController H
                  ltac:(intros; eapply agrees_instance; [eassumption | reflexivity])).
        unfold unflatten_controller, flatten_controller, save, load.
        destruct (tree_unflatten_state _ _); exact G.
    - destruct Hv as (at_ & ls & x & H).
      assert (E : forall f : obj N -> M N loc, mbind (read l) f h = f (OInst KBuilder at_) h)
        by (intros f; apply mbind_ok; rewrite run_read; now rewrite (rc_inst _ _ _ _ _ _ _ H)).
      unfold heap_call. rewrite E. destruct m; cbn [pure_call]; try reflexivity.
      + eapply sim_define; exact H.
      + eapply sim_define_by_shape; exact H.
      + eapply sim_delete; exact H.
      + eapply sim_convert; [exact H | reflexivity].
      + exact (sim_rebuild h l KBuilder at_ ls x s (new_instance KBuilder) PBuilder H
                  ltac:(intros; eapply agrees_instance; [eassumption | reflexivity])).
    - destruct Hv as (at_ & ls & x & H).
      assert (E : forall f : obj N -> M N loc, mbind (read l) f h = f (OInst KViewer at_) h)
        by (intros f; apply mbind_ok; rewrite run_read; now rewrite (rc_inst _ _ _ _ _ _ _ H)).
      unfold heap_call. rewrite E. destruct m; cbn [pure_call]; try reflexivity.
      + eapply sim_save; exact H.
      + eapply sim_transform; exact H.
      + eapply sim_mask; exact H.
      + eapply sim_unhalted; exact H.
      + eapply sim_halted; exact H.
      + exact (sim_rebuild h l KViewer at_ ls x s (new_instance KViewer) PViewer H
                  ltac:(intros; eapply agrees_instance; [eassumption | reflexivity])).
    - destruct Hv as (at_ & ls & x & H & Hm). destruct e as [s mode]. cbn [ed_state ed_mode] in *.
      assert (E : forall f : obj N -> M N loc, mbind (read l) f h = f (OInst KEditor at_) h)
        by (intros f; apply mbind_ok; rewrite run_read; now rewrite (rc_inst _ _ _ _ _ _ _ H)).
      unfold heap_call. rewrite E. destruct m; cbn [pure_call]; try reflexivity.
      + eapply sim_save; exact H.
      + eapply sim_convert; [exact H | reflexivity].
      + eapply sim_set_probabilities; eassumption.
      + eapply sim_set_residuals; eassumption.
      + eapply sim_set_iterations; eassumption.
      + eapply sim_set_epsilon; eassumption.
      + eapply sim_set_accumulator; eassumption.
      + eapply sim_set_defaults; eassumption.
      + eapply sim_set_updates; eassumption.
      + erewrite mbind_ok; [|eapply self_mode_ok; [apply (rc_inst _ _ _ _ _ _ _ H) | exact Hm]].
        assert (G := sim_rebuild h l KEditor at_ ls x s (fun ls => new_editor ls mode)
                       (fun s => PEditor (mkEd s mode)) H
                       ltac:(intros; eapply agrees_editor; eassumption)).
        unfold unflatten_editor, flatten_editor. cbn [ed_state ed_mode].
        destruct (tree_flatten_state s) as [flat td]. cbn [fst snd] in *.
        destruct (tree_unflatten_state td flat); exact G.
    - destruct Hv as (x & Hn & Hs).
      assert (E : forall f : obj N -> M N loc, mbind (read l) f h = f (OState x) h)
        by (intros f; apply mbind_ok; rewrite run_read; now rewrite Hn).
      unfold heap_call. rewrite E. destruct m; cbn [pure_call]; try reflexivity.
      + eapply agrees_instance; [exact Hs | reflexivity].
      + eapply agrees_instance; [exact Hs | reflexivity].
      + unfold h_edit_save, edit_save. rewrite mbind_lift.
        destruct (guard _ _) as [[]|]; cbn [bind fmap]; [|reflexivity].
        now apply agrees_editor.
  Qed.

  (** ** Histories *)
  Definition shows (h : heap) (p : list loc) (vs : list (pyval N)) : Prop :=
    Forall2 (fun l v => view h l = Some v) p vs.
  Lemma sim_do (h : heap) p vs c :
    shows h p vs -> agrees (heap_do p c h) (pure_do vs c).
  Proof.
    intros Hs. destruct c as [i m|em b d eps dep]; simpl.
    - destruct (nth_error p i) as [l|] eqn:E.
      + assert (G : exists v, nth_error vs i = Some v /\ view h l = Some v).
        { clear -Hs E. revert i E. induction Hs as [|l0 v0 p vs H0 Hs IH]; intros [|i] E;
            try discriminate; simpl in *.
          - injection E as <-. eauto.
          - eauto. }
        destruct G as (v & -> & Hv). now apply sim_call.
      + assert (G : nth_error vs i = None).
        { apply nth_error_None.
          replace (length vs) with (length p) by (clear -Hs; induction Hs; simpl; congruence).
          now apply nth_error_None. }
        rewrite G. reflexivity.
    - apply sim_new_builder.
  Qed.
  Lemma sim_run (h : heap) p vs cs :
    shows h p vs ->
    let '(es, p', h') := heap_run p h cs in
    let '(es', vs') := pure_run vs cs in
    es = es' /\ shows h' p' vs'.
  Proof.
    revert h p vs. induction cs as [|c cs IH]; intros h p vs Hs; simpl; [auto|].
    pose proof (sim_do h p vs c Hs) as Ha.
    pose proof (safe_do (length h) p c h (le_n _)) as Hf.
    destruct (heap_do p c h) as [r h1]. destruct Hf as (Hlen & Hf & _).
    assert (Hk : kept h h1).
    { intros l o Hl. rewrite Hf; [exact Hl|]. apply nth_error_Some. congruence. }
    assert (Hs1 : shows h1 p vs).
    { clear -Hs Hk. induction Hs; constructor; eauto using kept_view. }
    unfold agrees in Ha. cbn [fst snd] in Ha.
    destruct (pure_do vs c) as [v|e].
    - destruct Ha as (l & -> & Hv).
      assert (Hs2 : shows h1 (p ++ [l]) (vs ++ [v])) by (apply Forall2_app; auto).
      specialize (IH h1 (p ++ [l]) (vs ++ [v]) Hs2).
      destruct (heap_run _ h1 cs) as [[es p'] h']. destruct (pure_run _ cs) as [es' vs'].
      destruct IH as [-> Hs']. simpl. auto.
    - subst r. specialize (IH h1 p vs Hs1).
      destruct (heap_run p h1 cs) as [[es p'] h']. destruct (pure_run vs cs) as [es' vs'].
      destruct IH as [-> Hs']. simpl. auto.
  Qed.
  (** ** Which dictionaries the result holds

      The result is an instance whose state object is new; [P] says which dictionaries it holds. *)
  Definition lands (h : heap) (v : res loc * heap) (k : cls) (P : hstate N -> Prop) : Prop :=
    exists h1 x dfs accs upds,
      v = (Ok (length (h1 ++ [OState x])),
           (h1 ++ [OState x]) ++ [OInst k [(a_flag, VBool true); (a_state, VRef (length h1))]]) /\
      kept h h1 /\
      view_dict h1 (h_defaults x) = Some dfs /\ view_dict h1 (h_accumulators x) = Some accs /\
      view_dict h1 (h_updates x) = Some upds /\ P x.
  Ltac kp := solve [repeat (first [apply kept_app | eapply kept_trans; [apply kept_app|]])].
  Ltac land :=
    rewrite new_instance_ok; eexists _, _, _, _, _; split; [reflexivity|]; split; [kp|];
    cbn [h_defaults h_accumulators h_updates default hr_defaults hr_accumulators hr_updates];
    split; [vd|]; split; [vd|]; split; [vd|]; repeat split; len.

  Lemma lands_cache (h : heap) l at_ ls x s name item s' :
    receiver h l KController at_ ls x s -> cache_update s name item = Ok s' ->
    lands h (h_cache_update l name item h) KController
      (fun x' => h_defaults x' = h_defaults x /\ h_accumulators x' = h_accumulators x /\
                 length h <= h_updates x').
  Proof.
    intros H E. unfold cache_update in E. unfold h_cache_update. go.
    destruct (dget name (updates s)) as [pending|]; [|discriminate].
    destruct (negb (is_none pending)); [discriminate|]. go. land.
  Qed.
  Lemma lands_iterate (h : heap) l at_ ls x s p s' :
    receiver h l KController at_ ls x s -> iterate_act s p = Ok s' ->
    lands h (h_iterate_act l p h) KController
      (fun x' => h_defaults x' = h_defaults x /\ length h <= h_accumulators x' /\
                 length h <= h_updates x').
  Proof.
    intros H E. unfold iterate_act in E. unfold h_iterate_act. go.
    destruct (guard _ _); cbn [bind] in E; [|discriminate]. go.
    destruct (process_probabilities s _) as [[[hp r'] p']|]; cbn [bind] in E; [|discriminate]. go.
    pose proof (sim_iterate_loop h l at_ ls x s hp (dkeys (accumulators s))
                      (accumulators s) (updates s) H) as HL.
    destruct (iterate_loop s hp _ _ _) as [[a' u']|e]; cbn [bind] in E; [|discriminate].
    erewrite mbind_ok by exact HL. go.
    destruct (a_select _ _ _); cbn [bind] in E; [|discriminate].
    replace (length (h ++ [ODict (accumulators s)])) with (length (h ++ [ODict a'])) by len. go.
    land.
  Qed.
  Lemma lands_reset (h : heap) l at_ ls x s s' :
    receiver h l KController at_ ls x s -> reset_batches s = Ok s' ->
    lands h (h_reset_batches l h) KController
      (fun x' => h_defaults x' = h_defaults x /\ length h <= h_accumulators x' /\
                 h_updates x' = h_updates x).
  Proof.
    intros H E. unfold reset_batches in E. unfold h_reset_batches. go.
    destruct (guard _ _); cbn [bind] in E; [|discriminate]. cbv zeta. go.
    destruct (a_mul_bool (iterations s) _); cbn [bind] in E; [|discriminate]. go.
    destruct (a_mul_bool (probabilities s) _); cbn [bind] in E; [|discriminate]. go.
    destruct (a_mul_bool (residuals s) _); cbn [bind] in E; [|discriminate]. go.
    pose proof (sim_reset_loop h l at_ ls x s (tnot (halted_batches s))
                      (dkeys (accumulators s)) [] H) as HL.
    destruct (reset_loop _ _ _ _) as [o'|e]; cbn [bind] in E; [|discriminate].
    erewrite mbind_ok by exact HL. go. land.
  Qed.
  Lemma lands_transform (h : heap) l at_ ls x s f s' :
    receiver h l KViewer at_ ls x s -> transform s f = Ok s' ->
    lands h (h_transform l f h) KViewer
      (fun x' => length h <= h_defaults x' /\ length h <= h_accumulators x' /\
                 length h <= h_updates x').
  Proof.
    intros H E. unfold transform in E. unfold h_transform. go. rewrite run_bind, run_rewrap. go.
    destruct (f (iterations s)) as [its|]; cbn [bind rewrap] in E; [|discriminate]. go.
    destruct (f (residuals s)) as [ress|]; cbn [bind rewrap] in E; [|discriminate]. go.
    destruct (f (probabilities s)) as [probs|]; cbn [bind rewrap] in E; [|discriminate]. go.
    destruct (dmapM _ (accumulators s)) as [da|]; cbn [bind rewrap] in E; [|discriminate]. go.
    destruct (dmapM _ (defaults s)) as [dd|]; cbn [bind rewrap] in E; [|discriminate]. go.
    unfold ret. cbn [exec]. go. land.
  Qed.
  Lemma lands_define (h : heap) l at_ ls x s name t s' :
    receiver h l KBuilder at_ ls x s -> define s name t = Ok s' ->
    lands h (h_define l name t h) KBuilder
      (fun x' => length h <= h_defaults x' /\ length h <= h_accumulators x' /\
                 length h <= h_updates x').
  Proof.
    intros H E. unfold define in E. unfold h_define. go.
    destruct (validate_definition s t); cbn [bind] in E; [|discriminate]. go. land.
  Qed.
End HeapFacts3.
