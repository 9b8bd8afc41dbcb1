(** * The heap programs compute what the functional model computes *)
From Verif Require Import Base PyTree Tensor Num Utils States Controller Builder Viewer Editor
  Heap HeapSpec HeapFacts.

Section HeapFacts2.
  Context {N : numsys}.
  Notation st := (state N).
  Notation tr := (tree (array N)).

  (** A run and the result of the functional model agree: same exception, or an object that shows
      the functional result. *)
  Definition agrees (v : res loc * heap N) (r : res (pyval N)) : Prop :=
    match r with
    | Ok a => exists l, fst v = Ok l /\ view (snd v) l = Some a
    | Err e => fst v = Err e
    end.

  Lemma mbind_ok {A B} (m : M N A) (f : A -> M N B) h a h' :
    m h = (Ok a, h') -> mbind m f h = f a h'.
  Proof. intros E. rewrite run_bind. now rewrite E. Qed.
  Lemma mbind_lift {A B} (r : res A) (f : A -> M N B) h :
    mbind (lift r) f h = match r with Ok a => f a h | Err e => (Err e, h) end.
  Proof. now destruct r. Qed.

  (** ** Lists *)
  Lemma nth_last (h : heap N) o : nth_error (h ++ [o]) (length h) = Some o.
  Proof. rewrite nth_error_app2, Nat.sub_diag; auto. Qed.
  Lemma put_last (h : heap N) o o' : put (h ++ [o]) (length h) o' = h ++ [o'].
  Proof. pose proof (put_app h [o] 0 o') as E. rewrite Nat.add_0_r in E. exact E. Qed.
  Lemma put_app_l (h t : heap N) l o : l < length h -> put (h ++ t) l o = put h l o ++ t.
  Proof.
    revert l. induction h as [|x h IH]; intros [|l] Hl; simpl in *; try lia; auto.
    rewrite IH; [reflexivity | lia].
  Qed.
  Lemma view_dict_last (h : heap N) d : view_dict (h ++ [ODict d]) (length h) = Some d.
  Proof. unfold view_dict. now rewrite nth_last. Qed.
  Lemma view_dict_app (h t : heap N) l d : view_dict h l = Some d -> view_dict (h ++ t) l = Some d.
  Proof. apply kept_view_dict, kept_app. Qed.
  Lemma view_state_app (h t : heap N) l s : view_state h l = Some s -> view_state (h ++ t) l = Some s.
  Proof. apply kept_view_state, kept_app. Qed.
  Lemma nth_app (h t : heap N) l o : nth_error h l = Some o -> nth_error (h ++ t) l = Some o.
  Proof. apply kept_app. Qed.

  (** ** Primitives on heaps of known contents *)
  Lemma read_dict_ok (h : heap N) l d : view_dict h l = Some d -> read_dict l h = (Ok d, h).
  Proof.
    unfold view_dict, read_dict. rewrite run_bind, run_read. destruct (nth_error h l) as [[]|]; try discriminate.
    now intros [= ->].
  Qed.
  Lemma read_state_ok (h : heap N) l x : nth_error h l = Some (OState x) -> read_state l h = (Ok x, h).
  Proof. intros E. unfold read_state. rewrite run_bind, run_read. now rewrite E. Qed.
  Lemma read_inst_ok (h : heap N) l k a : nth_error h l = Some (OInst k a) -> read_inst l h = (Ok (k, a), h).
  Proof. intros E. unfold read_inst. rewrite run_bind, run_read. now rewrite E. Qed.
  Lemma dict_copy_ok (h : heap N) l d :
    view_dict h l = Some d -> dict_copy l h = (Ok (length h), h ++ [ODict d]).
  Proof. intros E. unfold dict_copy. now rewrite (mbind_ok _ _ _ _ _ (read_dict_ok _ _ _ E)). Qed.
  Lemma dict_set_ok (h : heap N) l d k v :
    view_dict h l = Some d -> dict_set l k v h = (Ok tt, put h l (ODict (dset k v d))).
  Proof. intros E. unfold dict_set. now rewrite (mbind_ok _ _ _ _ _ (read_dict_ok _ _ _ E)). Qed.
  Lemma dict_pop_ok (h : heap N) l d k :
    view_dict h l = Some d ->
    dict_pop l k h = match dpop k d with Ok d' => (Ok tt, put h l (ODict d')) | Err e => (Err e, h) end.
  Proof.
    intros E. unfold dict_pop. rewrite (mbind_ok _ _ _ _ _ (read_dict_ok _ _ _ E)), mbind_lift.
    now destruct (dpop k d).
  Qed.
  Lemma self_state_ok (h : heap N) l k attrs ls :
    nth_error h l = Some (OInst k attrs) -> dget a_state attrs = Some (VRef ls) ->
    self_state l h = (Ok ls, h).
  Proof. intros E1 E2. unfold self_state, read_inst. rewrite !run_bind, run_read, E1. cbn. now rewrite E2. Qed.
  Lemma self_mode_ok (h : heap N) l k attrs m :
    nth_error h l = Some (OInst k attrs) -> dget a_error_mode attrs = Some (VStr m) ->
    self_mode l h = (Ok m, h).
  Proof. intros E1 E2. unfold self_mode, read_inst. rewrite !run_bind, run_read, E1. cbn. now rewrite E2. Qed.
  Lemma view_state_inv (h : heap N) l s :
    view_state h l = Some s ->
    exists x, nth_error h l = Some (OState x) /\
      view_dict h (h_defaults x) = Some (defaults s) /\
      view_dict h (h_accumulators x) = Some (accumulators s) /\
      view_dict h (h_updates x) = Some (updates s) /\
      h_epsilon x = epsilon s /\ h_iterations x = iterations s /\ h_residuals x = residuals s /\
      h_probabilities x = probabilities s /\ h_depression_constant x = depression_constant s /\
      h_error_mode x = error_mode s.
  Proof.
    unfold view_state. intros E. destruct (nth_error h l) as [[|x|]|]; try discriminate.
    exists x. split; [reflexivity|].
    destruct (view_dict h (h_defaults x)); [|discriminate].
    destruct (view_dict h (h_accumulators x)); [|discriminate].
    destruct (view_dict h (h_updates x)); [|discriminate].
    assert (E' : forall a b : st, Some a = Some b -> a = b) by congruence.
    apply E' in E. rewrite <- E. repeat split; reflexivity.
  Qed.
  Lemma deref_ok (h : heap N) l s : view_state h l = Some s -> deref l h = (Ok s, h).
  Proof.
    intros E. destruct (view_state_inv _ _ _ E) as (x & E0 & E1 & E2 & E3 & F1 & F2 & F3 & F4 & F5 & F6).
    unfold deref. rewrite (mbind_ok _ _ _ _ _ (read_state_ok _ _ _ E0)),
      (mbind_ok _ _ _ _ _ (read_dict_ok _ _ _ E1)), (mbind_ok _ _ _ _ _ (read_dict_ok _ _ _ E2)),
      (mbind_ok _ _ _ _ _ (read_dict_ok _ _ _ E3)).
    unfold ret. rewrite F1, F2, F3, F4, F5, F6. now destruct s.
  Qed.
  Lemma hreplace_ok (h : heap N) l x r :
    nth_error h l = Some (OState x) -> hr_depression_constant r = None -> hr_error_mode r = None ->
    hreplace l r h =
      (Ok (length h),
       h ++ [OState (mkH (default (hr_epsilon r) (h_epsilon x))
                       (default (hr_iterations r) (h_iterations x))
                       (default (hr_residuals r) (h_residuals x))
                       (default (hr_probabilities r) (h_probabilities x))
                       (default (hr_defaults r) (h_defaults x))
                       (default (hr_accumulators r) (h_accumulators x))
                       (default (hr_updates r) (h_updates x))
                       (h_depression_constant x) (h_error_mode x))]).
  Proof.
    intros E E1 E2. unfold hreplace. rewrite (mbind_ok _ _ _ _ _ (read_state_ok _ _ _ E)), E1, E2.
    reflexivity.
  Qed.
  Lemma view_state_last (h : heap N) x dfs accs upds :
    view_dict h (h_defaults x) = Some dfs -> view_dict h (h_accumulators x) = Some accs ->
    view_dict h (h_updates x) = Some upds ->
    view_state (h ++ [OState x]) (length h) =
      Some (mkState (h_epsilon x) (h_iterations x) (h_residuals x) (h_probabilities x)
              dfs accs upds (h_depression_constant x) (h_error_mode x)).
  Proof.
    intros E1 E2 E3. unfold view_state. rewrite nth_last.
    now rewrite (view_dict_app _ _ _ _ E1), (view_dict_app _ _ _ _ E2), (view_dict_app _ _ _ _ E3).
  Qed.

  (** ** Attributes *)
  Lemma run_setattr (h : heap N) l k attrs key v :
    nth_error h l = Some (OInst k attrs) ->
    setattr l key v h =
      if (match dget a_flag attrs with Some v => truth h v | None => false end) && negb (String.eqb key a_flag)
      then (Err AttributeError, h)
      else if existsb (String.eqb key) (properties k) then (Err AttributeError, h)
      else (Ok tt, put h l (OInst k (dset key v attrs))).
  Proof.
    intros E. unfold setattr. rewrite (mbind_ok _ _ _ _ _ (read_inst_ok _ _ _ _ E)), run_bind, run_flag. cbv beta iota.
    destruct (_ && _); [reflexivity|]. now destruct (existsb _ _).
  Qed.
  Lemma run_delattr (h : heap N) l k attrs key :
    nth_error h l = Some (OInst k attrs) ->
    delattr l key h =
      if dmem key attrs then (Ok tt, put h l (OInst k (ddel key attrs))) else (Err AttributeError, h).
  Proof.
    intros E. unfold delattr. rewrite (mbind_ok _ _ _ _ _ (read_inst_ok _ _ _ _ E)). now destruct (dmem key attrs).
  Qed.

  (** ** Constructors *)
  Lemma setattr_last (h : heap N) k attrs key v :
    dget a_flag attrs <> Some (VBool true) ->
    (forall v, dget a_flag attrs = Some v -> exists b, v = VBool b) ->
    existsb (String.eqb key) (properties k) = false ->
    setattr (length h) key v (h ++ [OInst k attrs]) = (Ok tt, h ++ [OInst k (dset key v attrs)]).
  Proof.
    intros Hf Hb Hp. unfold setattr.
    rewrite (mbind_ok _ _ _ _ _ (read_inst_ok _ _ _ _ (nth_last h (OInst k attrs)))).
    rewrite run_bind, run_flag, Hp. cbv beta iota.
    destruct (dget a_flag attrs) as [w|] eqn:E; [destruct (Hb w eq_refl) as [[|] ->]; [congruence|]|];
      cbn [truth andb exec write]; now rewrite put_last.
  Qed.
  Lemma prop_flag k : existsb (String.eqb a_flag) (properties k) = false.
  Proof. now destruct k. Qed.
  Lemma prop_state k : existsb (String.eqb a_state) (properties k) = false.
  Proof. now destruct k. Qed.
  Lemma prop_mode k : existsb (String.eqb a_error_mode) (properties k) = false.
  Proof. now destruct k. Qed.
  Lemma new_instance_ok k s (h : heap N) :
    new_instance k s h =
      (Ok (length h), h ++ [OInst k [(a_flag, VBool true); (a_state, VRef s)]]).
  Proof.
    unfold new_instance, immutable_init, make_immutable. rewrite (mbind_ok (alloc (OInst k [])) _ h (length h) (h ++ [OInst k []]) eq_refl).
    rewrite (mbind_ok _ _ _ _ _ (setattr_last h k [] a_flag (VBool false)
               ltac:(discriminate) ltac:(discriminate) (prop_flag k))).
    cbn [dset].
    erewrite mbind_ok; [|apply setattr_last; [discriminate | intros w [= <-]; eauto | apply prop_state]].
    erewrite mbind_ok; [|apply setattr_last; [discriminate | intros w [= <-]; eauto | apply prop_flag]].
    reflexivity.
  Qed.
  Lemma new_editor_ok s m (h : heap N) :
    new_editor s m h =
      (Ok (length h),
       h ++ [OInst KEditor [(a_flag, VBool true); (a_error_mode, VStr m); (a_state, VRef s)]]).
  Proof.
    unfold new_editor, immutable_init, make_immutable.
    rewrite (mbind_ok (alloc (OInst KEditor [])) _ h (length h) (h ++ [OInst KEditor []]) eq_refl).
    rewrite (mbind_ok _ _ _ _ _ (setattr_last h KEditor [] a_flag (VBool false)
               ltac:(discriminate) ltac:(discriminate) (prop_flag _))).
    cbn [dset].
    erewrite mbind_ok; [|apply setattr_last; [discriminate | intros w [= <-]; eauto | apply prop_mode]].
    erewrite mbind_ok; [|apply setattr_last; [discriminate | intros w [= <-]; eauto | apply prop_state]].
    erewrite mbind_ok; [|apply setattr_last; [discriminate | intros w [= <-]; eauto | apply prop_flag]].
    reflexivity.
  Qed.

  Definition pv (k : cls) (s : st) : option (pyval N) :=
    match k with
    | KController => Some (PController s) | KBuilder => Some (PBuilder s)
    | KViewer => Some (PViewer s) | KEditor => None
    end.
  Lemma view_instance (h : heap N) k ls s v :
    view_state h ls = Some s -> pv k s = Some v ->
    view (h ++ [OInst k [(a_flag, VBool true); (a_state, VRef ls)]]) (length h) = Some v.
  Proof.
    intros E Hk. unfold view. rewrite nth_last. cbn. rewrite (view_state_app _ _ _ _ E).
    destruct k; simpl in Hk; congruence.
  Qed.
  Lemma view_editor (h : heap N) ls s m :
    view_state h ls = Some s ->
    view (h ++ [OInst KEditor [(a_flag, VBool true); (a_error_mode, VStr m); (a_state, VRef ls)]])
         (length h) = Some (PEditor (mkEd s m)).
  Proof. intros E. unfold view. rewrite nth_last. cbn. now rewrite (view_state_app _ _ _ _ E). Qed.

  (** The last two statements of the methods. *)
  Lemma agrees_instance (h : heap N) k ls s v :
    view_state h ls = Some s -> pv k s = Some v -> agrees (new_instance k ls h) (Ok v).
  Proof.
    intros E Hk. rewrite new_instance_ok. exists (length h). split; [reflexivity|].
    eapply view_instance; eassumption.
  Qed.
  Lemma agrees_editor (h : heap N) ls s m :
    view_state h ls = Some s -> agrees (new_editor ls m h) (Ok (PEditor (mkEd s m))).
  Proof.
    intros E. rewrite new_editor_ok. exists (length h). split; [reflexivity|].
    now apply view_editor.
  Qed.

  (** What is known about a receiver. *)
  Record receiver (h : heap N) (l : loc) (k : cls) (rc_attrs : dict attr)
    (ls : loc) (x : hstate N) (s : st) : Prop := mkRcv {
    rc_inst : nth_error h l = Some (OInst k rc_attrs);
    rc_ref : dget a_state rc_attrs = Some (VRef ls);
    rc_state : nth_error h ls = Some (OState x);
    rc_view : view_state h ls = Some s;
    rc_defaults : view_dict h (h_defaults x) = Some (defaults s);
    rc_accumulators : view_dict h (h_accumulators x) = Some (accumulators s);
    rc_updates : view_dict h (h_updates x) = Some (updates s);
    rc_eq : s = mkState (h_epsilon x) (h_iterations x) (h_residuals x) (h_probabilities x)
                  (defaults s) (accumulators s) (updates s) (h_depression_constant x)
                  (h_error_mode x)
  }.
End HeapFacts2.
