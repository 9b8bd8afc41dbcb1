(** * Locked instances, and which objects a result shares with its receiver *)
From Verif Require Import Base PyTree Tensor Num Utils States Controller Builder Viewer Editor
  Heap HeapSpec BaseFacts HeapFacts HeapFacts2 HeapFacts3.

Section HeapFacts4.
  Context {N : numsys}.
  Notation st := (state N).
  Notation tr := (tree (array N)).
  Notation heap := (heap N).

  (** Every instance on the heap has finished its construction. *)
  Definition locked (o : obj N) : Prop :=
    match o with OInst _ attrs => dget a_flag attrs = Some (VBool true) | _ => True end.
  Definition all_locked (h : heap) : Prop := Forall locked h.

  Definition keeps {A} (m : M N A) : Prop := forall h, all_locked h -> all_locked (snd (m h)).
  Lemma keeps_ret {A} (a : A) : keeps (ret a).
  Proof. intros h Hh. exact Hh. Qed.
  Lemma keeps_raise {A} e : keeps (@raise N A e).
  Proof. intros h Hh. exact Hh. Qed.
  Lemma keeps_lift {A} (r : res A) : keeps (lift r).
  Proof. intros h Hh. exact Hh. Qed.
  Lemma keeps_bind {A B} (m : M N A) (f : A -> M N B) :
    keeps m -> (forall a, keeps (f a)) -> keeps (mbind m f).
  Proof.
    intros Hm Hf h Hh. specialize (Hm h Hh). rewrite run_bind. destruct (m h) as [[a|e] h1]; [|exact Hm].
    exact (Hf a h1 Hm).
  Qed.
  Lemma keeps_mrewrap {A} e (m : M N A) : keeps m -> keeps (mrewrap e m).
  Proof.
    intros Hm h Hh. specialize (Hm h Hh). rewrite run_rewrap. destruct (m h) as [[a|e'] h1]; exact Hm.
  Qed.
  Lemma keeps_alloc o : locked o -> keeps (alloc o).
  Proof. intros Ho h Hh. apply Forall_app. split; [exact Hh|]. constructor; auto. Qed.
  Lemma keeps_read l : keeps (read l).
  Proof. intros h Hh. rewrite run_read. now destruct (nth_error h l). Qed.
  Lemma put_forall (P : obj N -> Prop) (h : heap) l o : P o -> Forall P h -> Forall P (put h l o).
  Proof.
    intros Ho Hh. revert l. induction Hh as [|x h Hx Hh IH]; intros [|l]; simpl; constructor; auto.
  Qed.
  Lemma keeps_write_dict l d : keeps (write l (ODict d)).
  Proof. intros h Hh. apply put_forall; [exact I | exact Hh]. Qed.
  Lemma keeps_read_dict l : keeps (read_dict l).
  Proof.
    apply keeps_bind; [apply keeps_read|]. intros [d|x|k a]; first [apply keeps_ret | apply keeps_raise].
  Qed.
  Lemma keeps_read_state l : keeps (read_state l).
  Proof.
    apply keeps_bind; [apply keeps_read|]. intros [d|x|k a]; first [apply keeps_ret | apply keeps_raise].
  Qed.
  Lemma keeps_read_inst l : keeps (read_inst l).
  Proof.
    apply keeps_bind; [apply keeps_read|]. intros [d|x|k a]; first [apply keeps_ret | apply keeps_raise].
  Qed.
  Lemma keeps_dict_copy l : keeps (dict_copy l).
  Proof. apply keeps_bind; [apply keeps_read_dict|]. intros d. apply keeps_alloc. exact I. Qed.
  Lemma keeps_dict_set l k v : keeps (dict_set l k v).
  Proof. apply keeps_bind; [apply keeps_read_dict|]. intros d. apply keeps_write_dict. Qed.
  Lemma keeps_dict_pop l k : keeps (dict_pop l k).
  Proof.
    apply keeps_bind; [apply keeps_read_dict|]. intros d.
    apply keeps_bind; [apply keeps_lift|]. intros d'. apply keeps_write_dict.
  Qed.
  Lemma keeps_dict_new : keeps dict_new.
  Proof. apply keeps_alloc. exact I. Qed.
  Lemma keeps_new_instance k s : keeps (new_instance k s).
  Proof.
    intros h Hh. rewrite new_instance_ok. apply Forall_app. split; [exact Hh|].
    constructor; [reflexivity | constructor].
  Qed.
  Lemma keeps_new_editor s m : keeps (new_editor s m).
  Proof.
    intros h Hh. rewrite new_editor_ok. apply Forall_app. split; [exact Hh|].
    constructor; [reflexivity | constructor].
  Qed.
  Lemma keeps_self_state l : keeps (self_state l).
  Proof.
    apply keeps_bind; [apply keeps_read_inst|]. intros [k attrs].
    destruct (dget a_state attrs) as [[| |]|]; first [apply keeps_ret | apply keeps_raise].
  Qed.
  Lemma keeps_self_mode l : keeps (self_mode l).
  Proof.
    apply keeps_bind; [apply keeps_read_inst|]. intros [k attrs].
    destruct (dget a_error_mode attrs) as [[| |]|]; first [apply keeps_ret | apply keeps_raise].
  Qed.
  Lemma keeps_deref l : keeps (deref l).
  Proof.
    apply keeps_bind; [apply keeps_read_state|]. intros x.
    do 3 (apply keeps_bind; [apply keeps_read_dict|]; intros ?). apply keeps_ret.
  Qed.
  Lemma keeps_hreplace l r : keeps (hreplace l r).
  Proof.
    apply keeps_bind; [apply keeps_read_state|]. intros x.
    apply keeps_bind.
    { destruct (hr_depression_constant r); first [apply keeps_ret | apply keeps_raise]. }
    intros ?. apply keeps_bind.
    { destruct (hr_error_mode r); first [apply keeps_ret | apply keeps_raise]. }
    intros ?. apply keeps_alloc. exact I.
  Qed.

  Ltac keep1 :=
    lazymatch goal with
    | |- keeps (ret _) => apply keeps_ret
    | |- keeps (raise _) => apply keeps_raise
    | |- keeps (lift _) => apply keeps_lift
    | |- keeps (alloc _) => apply keeps_alloc; exact I
    | |- keeps (read _) => apply keeps_read
    | |- keeps (read_dict _) => apply keeps_read_dict
    | |- keeps (read_state _) => apply keeps_read_state
    | |- keeps (dict_copy _) => apply keeps_dict_copy
    | |- keeps (dict_set _ _ _) => apply keeps_dict_set
    | |- keeps (dict_pop _ _) => apply keeps_dict_pop
    | |- keeps dict_new => apply keeps_dict_new
    | |- keeps (new_instance _ _) => apply keeps_new_instance
    | |- keeps (new_editor _ _) => apply keeps_new_editor
    | |- keeps (self_state _) => apply keeps_self_state
    | |- keeps (self_mode _) => apply keeps_self_mode
    | |- keeps (deref _) => apply keeps_deref
    | |- keeps (hreplace _ _) => apply keeps_hreplace
    | |- keeps (mrewrap _ _) => apply keeps_mrewrap
    | |- keeps (mbind _ _) => apply keeps_bind; [|intros ?]
    | |- keeps (match ?x with _ => _ end) => destruct x
    | |- keeps (let _ := _ in _) => cbv zeta
    end.
  Lemma keeps_iterate_loop self p names la lu : keeps (h_iterate_loop self p names la lu).
  Proof. induction names as [|name names IH]; simpl; repeat (first [exact IH | keep1]). Qed.
  Lemma keeps_reset_loop self u names o : keeps (h_reset_loop self u names o).
  Proof. induction names as [|name names IH]; simpl; repeat (first [exact IH | keep1]). Qed.
  Lemma keeps_call m l : keeps (heap_call m l).
  Proof.
    unfold heap_call, h_cache_update, h_iterate_act, h_reset_batches, h_convert, h_save, h_load,
      h_unhalted_only, h_halted_only, h_mask_data, h_transform, h_define_by_shape, h_define,
      h_delete_definition, h_set_probabilities, h_set_residuals, h_set_iterations, h_set_epsilon,
      h_set_accumulator, h_set_defaults, h_set_updates, h_set_field, h_execute_checks,
      h_edit_controller, h_edit_save, h_rebuild.
    repeat (first [apply keeps_iterate_loop | apply keeps_reset_loop | keep1]).
  Qed.
  Lemma keeps_do p c : keeps (heap_do p c).
  Proof.
    destruct c as [i m|em b d eps dep]; simpl.
    - destruct (nth_error p i); [apply keeps_call | apply keeps_raise].
    - unfold h_new_builder. repeat keep1.
  Qed.
  Lemma run_locked p (h : heap) cs es p' h' :
    heap_run p h cs = (es, p', h') -> all_locked h -> all_locked h'.
  Proof.
    revert p h es p'. induction cs as [|c cs IH]; intros p h es p' Hr Hh; simpl in Hr.
    - injection Hr as _ _ <-. exact Hh.
    - pose proof (keeps_do p c h Hh) as Hk. destruct (heap_do p c h) as [r h1].
      destruct (heap_run _ h1 cs) as [[es2 p2] h2] eqn:E. injection Hr as _ _ <-.
      eapply IH; [exact E | exact Hk].
  Qed.

  Lemma constructed_locked (h : heap) : constructed h <-> all_locked h.
  Proof.
    unfold constructed, all_locked. rewrite Forall_forall. split.
    - intros Hc o Ho. apply In_nth_error in Ho as [l Hl]. destruct o as [| |k attrs]; simpl; auto.
      exact (Hc l k attrs Hl).
    - intros Hf l k attrs Hl. apply nth_error_In in Hl. exact (Hf _ Hl).
  Qed.
  Lemma setattr_locked (h : heap) l k attrs key v :
    nth_error h l = Some (OInst k attrs) -> dget a_flag attrs = Some (VBool true) ->
    key <> a_flag -> setattr l key v h = (Err AttributeError, h).
  Proof.
    intros E Hf Hk. rewrite (run_setattr _ _ _ _ _ _ E), Hf. cbn [truth andb].
    destruct (String.eqb_spec key a_flag); [contradiction | reflexivity].
  Qed.
  Lemma setattr_flag (h : heap) l k attrs v :
    nth_error h l = Some (OInst k attrs) ->
    setattr l a_flag v h = (Ok tt, put h l (OInst k (dset a_flag v attrs))).
  Proof.
    intros E. rewrite (run_setattr _ _ _ _ _ _ E), String.eqb_refl. cbn [negb]. now rewrite andb_false_r, prop_flag.
  Qed.
  Lemma setattr_open (h : heap) l k attrs key v :
    nth_error h l = Some (OInst k attrs) -> dget a_flag attrs = Some (VBool false) ->
    existsb (String.eqb key) (properties k) = false ->
    setattr l key v h = (Ok tt, put h l (OInst k (dset key v attrs))).
  Proof.
    intros E Hf Hp. rewrite (run_setattr _ _ _ _ _ _ E), Hf, Hp. reflexivity.
  Qed.
  Lemma put_same (h : heap) l o o' : nth_error h l = Some o -> nth_error (put h l o') l = Some o'.
  Proof. revert l. induction h as [|x h IH]; intros [|l] E; try discriminate; simpl in *; auto. Qed.
  Lemma put_put (h : heap) l o o' : put (put h l o) l o' = put h l o'.
  Proof. revert l. induction h as [|x h IH]; intros [|l]; simpl; auto. now rewrite IH. Qed.
  (** Writing an instance leaves dictionaries and state objects alone. *)
  Lemma put_inst_view_dict (h : heap) l k k' a a' l' :
    nth_error h l = Some (OInst k a) -> view_dict (put h l (OInst k' a')) l' = view_dict h l'.
  Proof.
    intros E. unfold view_dict. destruct (Nat.eq_dec l l') as [<-|Hne].
    - now rewrite (put_same _ _ _ _ E), E.
    - now rewrite put_other.
  Qed.
  Lemma put_inst_view_state (h : heap) l k k' a a' l' :
    nth_error h l = Some (OInst k a) -> view_state (put h l (OInst k' a')) l' = view_state h l'.
  Proof.
    intros E. unfold view_state. destruct (Nat.eq_dec l l') as [<-|Hne].
    - now rewrite (put_same _ _ _ _ E), E.
    - rewrite put_other by assumption. destruct (nth_error h l') as [[|x|]|]; auto.
      now rewrite !(put_inst_view_dict h l k k' a a') by assumption.
  Qed.
  (** Writing a dictionary: a state object that holds it shows the new contents. *)
  Lemma put_dict_view_dict (h : heap) ld d d' l :
    view_dict h ld = Some d ->
    view_dict (put h ld (ODict d')) l = if Nat.eq_dec ld l then Some d' else view_dict h l.
  Proof.
    intros E. unfold view_dict in *. destruct (nth_error h ld) eqn:En; [|discriminate].
    destruct (Nat.eq_dec ld l) as [<-|Hne].
    - now rewrite (put_same _ _ _ _ En).
    - now rewrite put_other.
  Qed.

  (** ** Sharing *)

  (** A result shows through which dictionaries it can be reached. *)
  Lemma assign_outside (h h1 : heap) l k at_ ls x s field name v :
    receiver h1 l k at_ ls x s -> kept h h1 -> length h <= field x ->
    (exists d, view_dict h1 (field x) = Some d) ->
    exists h2, assign_item field l name v h1 = (Ok tt, h2) /\ kept h h2.
  Proof.
    intros Hr Hk Hle [d Hd]. unfold assign_item, dict_of.
    exists (put h1 (field x) (ODict (dset name v d))). split.
    - rewrite run_bind. erewrite mbind_ok by (eapply rcv_self_state; exact Hr).
      erewrite mbind_ok by (eapply rcv_read_state; exact Hr). unfold ret.
      now apply dict_set_ok.
    - intros l' o Hl. rewrite put_other; [auto|].
      intros E. assert (l' < length h) by (apply nth_error_Some; congruence). lia.
  Qed.

  (** [new_instance] after [hreplace]: the receiver of the result. *)
  Lemma receiver_new (h : heap) k x dfs accs upds :
    view_dict h (h_defaults x) = Some dfs -> view_dict h (h_accumulators x) = Some accs ->
    view_dict h (h_updates x) = Some upds ->
    exists at_ s, receiver ((h ++ [OState x]) ++ [OInst k [(a_flag, VBool true); (a_state, VRef (length h))]])
                    (length (h ++ [OState x])) k at_ (length h) x s.
  Proof.
    intros E1 E2 E3. eexists _, _. constructor.
    - apply nth_last.
    - reflexivity.
    - apply nth_app, nth_last.
    - apply view_state_app. apply view_state_last; eassumption.
    - cbn. auto using view_dict_app.
    - cbn. auto using view_dict_app.
    - cbn. auto using view_dict_app.
    - reflexivity.
  Qed.
  Lemma view_receiver (h : heap) l k at_ ls x s v :
    receiver h l k at_ ls x s -> pv k s = Some v -> view h l = Some v.
  Proof.
    intros H Hv. unfold view. rewrite (rc_inst _ _ _ _ _ _ _ H).
    change "state"%string with a_state. rewrite (rc_ref _ _ _ _ _ _ _ H), (rc_view _ _ _ _ _ _ _ H).
    destruct k; simpl in Hv; congruence.
  Qed.
  Lemma receiver_put_dict (h : heap) l k at_ ls x s ld d d' :
    receiver h l k at_ ls x s -> view_dict h ld = Some d ->
    exists s2, receiver (put h ld (ODict d')) l k at_ ls x s2 /\
      defaults s2 = (if Nat.eq_dec ld (h_defaults x) then d' else defaults s) /\
      accumulators s2 = (if Nat.eq_dec ld (h_accumulators x) then d' else accumulators s) /\
      updates s2 = (if Nat.eq_dec ld (h_updates x) then d' else updates s).
  Proof.
    intros [H1 H2 H3 H4 H5 H6 H7 H8] E.
    assert (Hl : forall l' o, nth_error h l' = Some o -> (forall d, o <> ODict d) ->
                   nth_error (put h ld (ODict d')) l' = Some o).
    { intros l' o Ho Hn. rewrite put_other; [exact Ho|]. intros <-. unfold view_dict in E.
      rewrite Ho in E. destruct o; try discriminate. eapply Hn; reflexivity. }
    exists (mkState (h_epsilon x) (h_iterations x) (h_residuals x) (h_probabilities x)
              (if Nat.eq_dec ld (h_defaults x) then d' else defaults s)
              (if Nat.eq_dec ld (h_accumulators x) then d' else accumulators s)
              (if Nat.eq_dec ld (h_updates x) then d' else updates s)
              (h_depression_constant x) (h_error_mode x)).
    assert (Gd : view_dict (put h ld (ODict d')) (h_defaults x)
                 = Some (if Nat.eq_dec ld (h_defaults x) then d' else defaults s)).
    { rewrite (put_dict_view_dict _ _ _ _ _ E). now destruct (Nat.eq_dec ld (h_defaults x)). }
    assert (Ga : view_dict (put h ld (ODict d')) (h_accumulators x)
                 = Some (if Nat.eq_dec ld (h_accumulators x) then d' else accumulators s)).
    { rewrite (put_dict_view_dict _ _ _ _ _ E). now destruct (Nat.eq_dec ld (h_accumulators x)). }
    assert (Gu : view_dict (put h ld (ODict d')) (h_updates x)
                 = Some (if Nat.eq_dec ld (h_updates x) then d' else updates s)).
    { rewrite (put_dict_view_dict _ _ _ _ _ E). now destruct (Nat.eq_dec ld (h_updates x)). }
    assert (Gs : nth_error (put h ld (ODict d')) ls = Some (OState x)) by (apply Hl; [exact H3 | discriminate]).
    split; [|repeat split; reflexivity].
    constructor; auto.
    - apply Hl; [exact H1 | discriminate].
    - unfold view_state. now rewrite Gs, Gd, Ga, Gu.
  Qed.
  Lemma assign_item_ok (h : heap) l k at_ ls x s field name v d :
    receiver h l k at_ ls x s -> view_dict h (field x) = Some d ->
    assign_item field l name v h = (Ok tt, put h (field x) (ODict (dset name v d))).
  Proof.
    intros Hr Hd. unfold assign_item, dict_of. rewrite run_bind.
    erewrite mbind_ok by (eapply rcv_self_state; exact Hr).
    erewrite mbind_ok by (eapply rcv_read_state; exact Hr). unfold ret.
    now apply dict_set_ok.
  Qed.
  Lemma kept_app_r (h h1 t : heap) : kept h h1 -> kept h (h1 ++ t).
  Proof. intros Hk. eapply kept_trans; [exact Hk | apply kept_app]. Qed.
  Lemma receiver_kept (h h1 : heap) l k at_ ls x s :
    kept h h1 -> receiver h l k at_ ls x s -> receiver h1 l k at_ ls x s.
  Proof.
    intros Hk [H1 H2 H3 H4 H5 H6 H7 H8]. constructor; auto.
    - eapply kept_view_state; eauto.
    - eapply kept_view_dict; eauto.
    - eapply kept_view_dict; eauto.
    - eapply kept_view_dict; eauto.
  Qed.
End HeapFacts4.
