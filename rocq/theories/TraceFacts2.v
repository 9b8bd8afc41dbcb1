(** * Proofs: the loop of execute_act does not look at the contents of arrays *)
From Verif Require Import Base PyTree Tensor Num Utils States Controller Layers History
  BaseFacts PyTreeFacts TensorFacts LayerFacts TraceSpec TraceFacts.

Lemma F2_app_inv {A B} (R : A -> B -> Prop) l1 l2 l1' l2' : length l1 = length l1' ->
  Forall2 R (l1 ++ l2) (l1' ++ l2') -> Forall2 R l1 l1' /\ Forall2 R l2 l2'.
Proof.
  revert l1'. induction l1 as [|x l1 IH]; intros [|y l1'] E H; cbn in *; try discriminate; [auto|].
  injection E as E. inversion H as [|? ? ? ? Hx Hr]; subst. destruct (IH _ E Hr). auto.
Qed.
Lemma F2_concat {A B} (R : A -> B -> Prop) l l' : Forall2 (Forall2 R) l l' -> Forall2 R (concat l) (concat l').
Proof. induction 1; cbn; [constructor|]. now apply Forall2_app. Qed.
Lemma F2_impl {A B} (R S : A -> B -> Prop) l l' : (forall a b, R a b -> S a b) -> Forall2 R l l' -> Forall2 S l l'.
Proof. induction 2; auto. Qed.
Lemma F2_flip {A B} (R : A -> B -> Prop) l l' : Forall2 R l l' -> Forall2 (fun y x => R x y) l' l.
Proof. induction 1; auto. Qed.
Lemma F2_trans {A B C} (R : A -> B -> Prop) (S : B -> C -> Prop) (T : A -> C -> Prop) l1 l2 l3 :
  (forall a b c, R a b -> S b c -> T a c) -> Forall2 R l1 l2 -> Forall2 S l2 l3 -> Forall2 T l1 l3.
Proof. intros F H. revert l3. induction H; intros l3 H3; inversion H3; subst; constructor; eauto. Qed.

Lemma ltree_nodes {A B} (R : A -> B -> Prop) cs : forall ds,
  map structure cs = map structure ds -> Forall2 R (flat_map leaves cs) (flat_map leaves ds) -> Forall2 (ltree R) cs ds.
Proof.
  induction cs as [|c cs IH]; intros [|d ds] E H; cbn in *; try discriminate; [constructor|].
  injection E as Ec Ecs. apply F2_app_inv in H as [H1 H2]; [|now apply structure_eq_length].
  constructor; [now split|]. now apply IH.
Qed.
Lemma ltree_Node {A B} (R : A -> B -> Prop) n cs ds : Forall2 (ltree R) cs ds -> ltree R (Node n cs) (Node n ds).
Proof.
  intros H. split.
  - rewrite !structure_Node. f_equal. induction H as [|x y l l' [E _] H IH]; cbn; congruence.
  - cbn. induction H as [|x y l l' [_ E] H IH]; cbn; [constructor|]. now apply Forall2_app.
Qed.

Section Like.
  Context {N M : numsys}.
  Lemma like_array_sym (a : array N) (b : array M) : like_array a b -> like_array b a.
  Proof. intros []. now split. Qed.
  Lemma like_tree_sym (a : tree (array N)) (b : tree (array M)) : like_tree a b -> like_tree b a.
  Proof. intros [E F]. split; [easy|]. apply F2_flip in F. revert F. apply F2_impl. intros x y. apply like_array_sym. Qed.
  Lemma like_dict_sym (a : dict (tree (array N))) (b : dict (tree (array M))) : like_dict a b -> like_dict b a.
  Proof. intros F. apply F2_flip in F. revert F. apply F2_impl. intros x y [E T]. split; [easy|now apply like_tree_sym]. Qed.
  Lemma like_sym (s : state N) (s' : state M) : like s s' -> like s' s.
  Proof. intros []. constructor; try apply like_array_sym; try apply like_dict_sym; auto. Qed.
End Like.
Section LikeTrans.
  Context {N M K : numsys}.
  Lemma like_array_trans (a : array N) (b : array M) (c : array K) : like_array a b -> like_array b c -> like_array a c.
  Proof. intros [] []. split; congruence. Qed.
  Lemma like_tree_trans (a : tree (array N)) (b : tree (array M)) (c : tree (array K)) : like_tree a b -> like_tree b c -> like_tree a c.
  Proof. intros [E F] [E' F']. split; [congruence|]. exact (F2_trans _ _ _ _ _ _ like_array_trans F F'). Qed.
  Lemma like_dict_trans (a : dict (tree (array N))) (b : dict (tree (array M))) (c : dict (tree (array K))) :
    like_dict a b -> like_dict b c -> like_dict a c.
  Proof. apply F2_trans. intros x y z [E T] [E' T']. split; [congruence|]. exact (like_tree_trans _ _ _ T T'). Qed.
  Lemma like_trans (s : state N) (s' : state M) (s'' : state K) : like s s' -> like s' s'' -> like s s''.
  Proof.
    intros [] []. constructor; try congruence; try (eapply like_array_trans; eassumption); eapply like_dict_trans; eassumption.
  Qed.
End LikeTrans.
Lemma like_array_refl {N} (a : array N) : like_array a a. Proof. split; reflexivity. Qed.
Lemma like_tree_refl {N} (t : tree (array N)) : like_tree t t.
Proof. split; [reflexivity|]. induction (leaves t); constructor; auto using like_array_refl. Qed.
Lemma like_refl {N} (s : state N) : like s s.
Proof.
  assert (D : forall d : dict (tree (array N)), like_dict d d).
  { intros d. induction d; constructor; auto. split; auto using like_tree_refl. }
  constructor; auto using like_array_refl.
Qed.

Section Loop.
  Context {N M : numsys}.
  Notation la := (@like_array N M).
  Notation lt := (@like_tree N M).
  Notation ld := (@like_dict N M).
  Notation lk := (@like N M).

  (** ** Flattening and rebuilding *)
  Definition lpy (l : pyleaf N) (l' : pyleaf M) : Prop :=
    match l, l' with LArr a, LArr b => la a b | LScl _, LScl _ => True | LStr x, LStr y => x = y | _, _ => False end.

  Lemma ltree_tmap (t : tree (array N)) (t' : tree (array M)) : lt t t' -> ltree lpy (tmap LArr t) (tmap LArr t').
  Proof.
    intros [E F]. split; [now rewrite !structure_tmap|]. rewrite !leaves_tmap. clear E. induction F; cbn; constructor; auto.
  Qed.
  Lemma ltree_dict (d : dict (tree (array N))) (d' : dict (tree (array M))) : ld d d' -> ltree lpy (dict_tree d) (dict_tree d').
  Proof.
    intros H. apply (ldict_sort lt) in H. unfold dict_tree. rewrite (ldict_keys lt _ _ H). apply ltree_Node.
    unfold dvals. induction H as [|x y l l' [_ T] H IH]; cbn; constructor; auto. now apply ltree_tmap.
  Qed.
  Lemma ltree_leaf (x : pyleaf N) (y : pyleaf M) : lpy x y -> ltree lpy (Leaf x) (Leaf y).
  Proof. intros H. split; [reflexivity|]. cbn. auto. Qed.
  Lemma field_trees_like s s' : lk s s' -> Forall2 (ltree lpy) (field_trees s) (field_trees s').
  Proof.
    intros H. unfold field_trees.
    do 8 (constructor; [first [apply ltree_leaf; cbn; first [exact I|apply H]|apply ltree_dict; apply H]|]).
    constructor; [|constructor].
    rewrite (like_error_mode _ _ H). destruct (error_mode s'); [now apply ltree_leaf|split; [reflexivity|constructor]].
  Qed.
  Lemma flatten_like s s' : lk s s' ->
    Forall2 lpy (fst (flatten_controller s)) (fst (flatten_controller s')) /\ snd (flatten_controller s) = snd (flatten_controller s').
  Proof.
    intros H. apply field_trees_like in H. unfold flatten_controller, save, tree_flatten_state, state_flatten. cbn [fst snd]. split.
    - apply F2_concat. induction H as [|x y l l' [_ E] H IH]; cbn; constructor; auto.
    - f_equal.
      + induction H as [|x y l l' [E _] H IH]; cbn; congruence.
      + rewrite !map_map. induction H as [|x y l l' [_ E] H IH]; cbn; [reflexivity|]. f_equal; [|exact IH]. exact (F2_length _ _ _ E).
  Qed.
  Lemma lpy_abstract q q' : Forall2 lpy q q' -> map abstract_leaf q = map abstract_leaf q'.
  Proof.
    induction 1 as [|x y q q' Hx H IH]; cbn; [reflexivity|]. f_equal; [|exact IH].
    destruct x, y; cbn in *; try contradiction; [destruct Hx; congruence|reflexivity|reflexivity].
  Qed.
  Lemma abstract_lpy q : forall q', forallb leaf_ok q = true -> map abstract_leaf q = map abstract_leaf q' -> Forall2 lpy q q'.
  Proof.
    induction q as [|x q IH]; intros [|y q'] O E; cbn in *; try discriminate; [constructor|].
    injection E as Ex Eq. apply andb_prop in O as [Ox Oq]. constructor; [|now apply IH].
    destruct x, y; cbn in *; try discriminate; auto. injection Ex as E1 E2. now split.
  Qed.
  Lemma lpy_ok q q' : Forall2 lpy q q' -> forallb leaf_ok q = forallb leaf_ok q'.
  Proof. induction 1 as [|x y q q' Hx H IH]; cbn; [reflexivity|]. rewrite IH. destruct x, y; cbn in *; easy. Qed.

  Lemma as_tree_like t : forall t', ltree lpy t t' -> lopt lt (as_tree t) (as_tree t').
  Proof.
    induction t as [x|n cs IH] using tree_ind'; intros [x'|n' cs'] [E F]; cbn in E; try discriminate.
    - cbn in F. inversion F as [|? ? ? ? Hx _]; subst. destruct x, x'; cbn in *; try contradiction; auto. split; [reflexivity|]. cbn. auto.
    - injection E as -> E. cbn in F. pose proof (ltree_nodes lpy _ _ E F) as H. clear E F. cbn [as_tree].
      set (go := fix go (cs : list (tree (pyleaf N))) : option (list (tree (array N))) := match cs with [] => Some [] | _ => _ end).
      set (go' := fix go (cs : list (tree (pyleaf M))) : option (list (tree (array M))) := match cs with [] => Some [] | _ => _ end).
      assert (G : lopt (Forall2 lt) (go cs) (go' cs')).
      { induction H as [|c c' cs cs' Hc H IHc]; [constructor|]. apply Forall_cons_iff in IH as [I1 I2].
        specialize (IHc I2). specialize (I1 _ Hc). unfold go, go'; fold go; fold go'.
        destruct (as_tree c), (as_tree c'); cbn in I1; try contradiction; [|exact I].
        destruct (go cs), (go' cs'); cbn in IHc |- *; try contradiction; auto. }
      destruct (go cs), (go' cs'); cbn in G |- *; try contradiction; [|exact I]. now apply (ltree_Node la).
  Qed.
  Lemma as_items_like ks : forall cs cs', Forall2 (ltree lpy) cs cs' -> lopt ld (as_items ks cs) (as_items ks cs').
  Proof.
    induction ks as [|k ks IH]; intros cs cs' H; destruct H as [|c c' cs cs' Hc H]; cbn [as_items]; cbn; auto; [constructor|].
    specialize (IH _ _ H). apply as_tree_like in Hc. destruct (as_tree c), (as_tree c'); cbn in Hc; try contradiction; [|exact I].
    destruct (as_items ks cs), (as_items ks cs'); cbn in IH |- *; try contradiction; [|exact I]. constructor; auto.
  Qed.
  Lemma as_dict_like t t' : ltree lpy t t' -> lopt ld (as_dict t) (as_dict t').
  Proof.
    intros [E F]. destruct t as [x|n cs], t' as [x'|n' cs']; cbn in E; try discriminate; [exact I|]. injection E as -> E.
    cbn in F. destruct n'; try exact I. cbn [as_dict]. apply as_items_like. exact (ltree_nodes lpy _ _ E F).
  Qed.
  Lemma as_arr_like t t' : ltree lpy t t' -> lopt la (as_arr t) (as_arr t').
  Proof.
    intros [E F]. destruct t as [x|n cs], t' as [x'|n' cs']; cbn in E; try discriminate; [|exact I].
    cbn in F. inversion F as [|? ? ? ? Hx _]; subst. destruct x, x'; cbn in *; try contradiction; auto.
  Qed.
  Lemma as_scl_like t t' : ltree lpy t t' -> lopt (fun _ _ => True) (as_scl t) (as_scl t').
  Proof.
    intros [E F]. destruct t as [x|n cs], t' as [x'|n' cs']; cbn in E; try discriminate; [|exact I].
    cbn in F. inversion F as [|? ? ? ? Hx _]; subst. destruct x, x'; cbn in *; try contradiction; auto.
  Qed.
  Lemma as_mode_like t t' : ltree lpy t t' -> as_mode t = as_mode t'.
  Proof.
    intros [E F]. destruct t as [x|n cs], t' as [x'|n' cs']; cbn in E; try discriminate.
    - cbn in F. inversion F as [|? ? ? ? Hx _]; subst. destruct x, x'; cbn in *; try contradiction; congruence.
    - injection E as -> E. destruct n'; try reflexivity. destruct cs, cs'; try discriminate; reflexivity.
  Qed.
  Lemma state_of_trees_like vs vs' : Forall2 (ltree lpy) vs vs' -> rr lk (state_of_trees vs) (state_of_trees vs').
  Proof.
    intros H. unfold state_of_trees.
    do 9 (destruct H as [|? ? ? ? ? H]; [reflexivity|]). destruct H; [|reflexivity].
    repeat match goal with
    | |- rr _ (match as_scl ?t with _ => _ end) (match as_scl ?t' with _ => _ end) =>
        let X := fresh in assert (X : lopt (fun _ _ => True) (as_scl t) (as_scl t')) by (now apply as_scl_like);
        destruct (as_scl t), (as_scl t'); cbn in X; try contradiction; [|reflexivity]
    | |- rr _ (match as_arr ?t with _ => _ end) (match as_arr ?t' with _ => _ end) =>
        let X := fresh in assert (X : lopt la (as_arr t) (as_arr t')) by (now apply as_arr_like);
        destruct (as_arr t), (as_arr t'); cbn in X; try contradiction; [|reflexivity]
    | |- rr _ (match as_dict ?t with _ => _ end) (match as_dict ?t' with _ => _ end) =>
        let X := fresh in assert (X : lopt ld (as_dict t) (as_dict t')) by (now apply as_dict_like);
        destruct (as_dict t), (as_dict t'); cbn in X; try contradiction; [|reflexivity]
    | |- rr _ (match as_mode ?t with _ => _ end) (match as_mode ?t' with _ => _ end) =>
        let X := fresh in assert (X : as_mode t = as_mode t') by (now apply as_mode_like); rewrite X;
        destruct (as_mode t'); [|reflexivity]
    end.
    cbn. constructor; cbn; auto.
  Qed.
  Lemma split_by_like ns : forall q q', Forall2 lpy q q' -> rr (Forall2 (Forall2 lpy)) (split_by ns q) (split_by ns q').
  Proof.
    induction ns as [|n ns IH]; intros q q' H; cbn [split_by]; [destruct H; cbn; [constructor|reflexivity]|].
    rewrite (F2_length _ _ _ H). destruct (Nat.leb n (length q')); [|reflexivity].
    assert (FS : Forall2 lpy (firstn n q) (firstn n q') /\ Forall2 lpy (skipn n q) (skipn n q')).
    { clear IH. revert n. induction H; intros [|n]; cbn; auto. destruct (IHForall2 n). auto. }
    eapply rr_bind; [exact (IH _ _ (proj2 FS))|]. intros r r' R. cbn. constructor; [apply FS|exact R].
  Qed.
  Lemma unflatten_like td q q' : Forall2 lpy q q' -> rr lk (unflatten_controller td q) (unflatten_controller td q').
  Proof.
    intros H. unfold unflatten_controller, load, tree_unflatten_state, state_unflatten.
    eapply rr_bind; [|intros a b L; exact L]. eapply rr_bind; [exact (split_by_like _ _ _ H)|]. intros v v' V.
    eapply (rr_bind (Forall2 (ltree lpy))); [|intros a b L; exact (state_of_trees_like _ _ L)].
    eapply (rr_mapM2 (Forall2 lpy) eq (ltree lpy)); [exact V| |].
    - induction (fst td); constructor; auto.
    - intros a b a' b' F <-. exact (rr_unflatten lpy _ _ _ F).
  Qed.
  Lemma abstract_like s s' : lk s s' -> abstract_ctrl s = abstract_ctrl s'.
  Proof. intros H. destruct (flatten_like _ _ H) as [F E]. unfold abstract_ctrl. now rewrite (lpy_abstract _ _ F), E. Qed.
  Lemma leaves_ok_like s s' : lk s s' -> carry_leaves_ok s = carry_leaves_ok s'.
  Proof. intros H. destruct (flatten_like _ _ H) as [F _]. exact (lpy_ok _ _ F). Qed.
  Lemma abstract_user_like u u' : lt u u' <-> abstract_user u = abstract_user u'.
  Proof.
    unfold abstract_user. split.
    - intros [E F]. f_equal; [|exact E]. clear E. induction F as [|x y l l' [Hs Hd] F IH]; cbn; congruence.
    - intros [= F E]. split; [exact E|]. clear E. revert F. generalize (leaves u) (leaves u'). intros l.
      induction l as [|x l IH]; intros [|y l'] F; cbn in F; try discriminate; constructor.
      + injection F as Hs Hd _. now split.
      + injection F as _ _ F. auto.
  Qed.
  Lemma rr_rebuild c c' u u' m m' : carry_leaves_ok c = true -> abstract_ctrl c = abstract_ctrl c' -> lt u u' ->
    rr (fun x x' => let '(d, v, k) := x in let '(d', v', k') := x' in lk d d' /\ lt v v' /\ k = m /\ k' = m')
       (rebuild (c, u, m)) (rebuild (c', u', m')).
  Proof.
    unfold abstract_ctrl, carry_leaves_ok. intros O H U. unfold rebuild.
    destruct (flatten_controller c) as [flat td], (flatten_controller c') as [flat' td']. cbn [fst snd] in *.
    apply pair_equal_spec in H as [A T]. subst td'.
    pose proof (abstract_lpy _ _ O A) as F.
    eapply rr_bind; [exact (unflatten_like td _ _ F)|]. intros d d' D.
    destruct U as [E L]. rewrite E. eapply rr_bind; [exact (rr_unflatten la _ _ _ L)|]. intros v v' V. cbn. auto.
  Qed.
End Loop.

Lemma same_abstract_iff {N} (c c' : state N) u u' m m' :
  same_abstract (c, u, m) (c', u', m') = true <-> abstract_ctrl c = abstract_ctrl c' /\ abstract_user u = abstract_user u'.
Proof.
  split; [|intros [A B]; apply same_abstract_intro; auto]. unfold same_abstract.
  destruct (abstract_ctrl c) as [al [aux ns]], (abstract_ctrl c') as [al' [aux' ns']], (abstract_user u) as [ul utd], (abstract_user u') as [ul' utd'].
  intros H. repeat (apply andb_prop in H as [H ?]).
  destruct (list_eq_dec aleaf_eq_dec al al'); [|discriminate]. destruct (list_eq_dec aleaf_eq_dec ul ul'); [|discriminate].
  unfold tdl_eqb in *. repeat match goal with X : td_eqb _ _ = true |- _ => apply td_eqb_eq in X end.
  match goal with X : shape_eqb _ _ = true |- _ => apply shape_eqb_eq in X end. split; congruence.
Qed.

(** ** execute_act *)
Section Adapter.
  Context {N M : numsys}.
  Context (l : layer N) (l' : layer M) (LL : like_layer l l').
  Notation lk := (@like N M).
  Notation lt := (@like_tree N M).

  Definition lpair (p : state N * tree (array N)) (p' : state M * tree (array M)) : Prop :=
    lk (fst p) (fst p') /\ lt (snd p) (snd p').
  Definition lcarry (x : @carry N) (x' : @carry M) : Prop := lpair (fst x) (fst x').

  Lemma rr_validate_update c c' r r' : lk c c' -> like_ret r r' ->
    rr (fun _ _ => True) (validate_update c r) (validate_update c' r').
  Proof.
    intros H R. destruct r as [is|t], r' as [is'|t']; cbn in R; try contradiction; [|reflexivity]. cbn [validate_update].
    eapply rr_bind; [apply rr_guard; now rewrite (F2_length _ _ _ R)|]. intros _ _ _.
    destruct R as [|i i' is is' Hi R]; [reflexivity|]. destruct i, i'; cbn in Hi; try contradiction; try reflexivity.
    unfold validate_all_committed. destruct (lk_bools _ _ H) as [-> ->].
    eapply rr_bind; [apply rr_guard; reflexivity|]. intros _ _ _. apply rr_guard. reflexivity.
  Qed.
  Lemma lt_iter_length t t' : lt t t' -> iter_length t = iter_length t'.
  Proof.
    intros [S L]. destruct t as [a|n cs], t' as [a'|n' cs']; try discriminate.
    - inversion L as [|? ? ? ? [E _]]; subst. cbn. now rewrite E.
    - cbn in S. injection S as -> S. apply (f_equal (@length _)) in S. rewrite !map_length in S. cbn. now rewrite S.
  Qed.
  Lemma rr_unpack c c' r r' : lk c c' -> like_ret r r' -> rr lpair (unpack c r) (unpack c' r').
  Proof.
    intros H R. destruct r as [is|t], r' as [is'|t']; cbn in R; try contradiction; [|cbn; rewrite (lt_iter_length _ _ R); destruct (iter_length t') as [[|[|[|]]]|]; reflexivity].
    destruct R as [|i i' is is' Hi R]; [reflexivity|]. destruct i, i'; cbn in Hi; try contradiction;
      (destruct R as [|j j' is is' Hj R]; [reflexivity|]); destruct j, j'; cbn in Hj; try contradiction;
      destruct R; cbn; auto; split; auto.
  Qed.
  Lemma rr_adapter check c c' u u' m m' : lk c c' -> lt u u' ->
    rr (fun x x' => lcarry x x' /\ snd x = increase_counter m /\ snd x' = increase_counter m')
       (run_layer_adapter check l (c, u, m)) (run_layer_adapter check l' (c', u', m')).
  Proof.
    intros H U. unfold run_layer_adapter, wrapped_run_iteration.
    eapply (rr_bind like_ret).
    - eapply rr_bind; [exact (like_run _ _ LL _ _ _ _ H U)|]. intros r r' R.
      eapply (rr_bind (fun _ _ => True)); [|intros _ _ _; exact R]. destruct check; [now apply rr_validate_update|exact I].
    - intros r r' R. eapply rr_bind; [exact (rr_unpack _ _ _ _ H R)|]. intros [c1 u1] [c1' u1'] L. cbn. auto.
  Qed.
  Lemma rr_made check u u' d d' : lt u u' ->
    rr like_made (wrapped_make_controller check l u d) (wrapped_make_controller check l' u' d').
  Proof.
    intros U. unfold wrapped_make_controller. eapply rr_bind; [exact (like_make _ _ LL _ _ d d' U)|]. intros m m' Hm.
    eapply (rr_bind (fun _ _ => True)); [|intros _ _ _; exact Hm]. destruct check; [|exact I].
    destruct m as [c|t], m' as [c'|t']; cbn in Hm; try contradiction; [|reflexivity]. cbn [validate_made].
    apply rr_guard. f_equal. now rewrite (F2_length _ _ _ (like_accumulators _ _ Hm)).
  Qed.
End Adapter.

(** Every state has a like one in every number system. *)
Section Blank.
  Context {N M : numsys}.
  Definition blank_array (a : array N) : array M := mkA (a_dt a) (tensor_map (fun _ => v_zero M) (a_ten a)).
  Definition blank_dict (d : dict (tree (array N))) : dict (tree (array M)) := map (fun kv => (fst kv, tmap blank_array (snd kv))) d.
  Definition blank (s : state N) : state M :=
    mkState (s_zero M) (blank_array (iterations s)) (blank_array (residuals s)) (blank_array (probabilities s))
      (blank_dict (defaults s)) (blank_dict (accumulators s)) (blank_dict (updates s)) (s_zero M) (error_mode s).
  Lemma like_blank_tree t : like_tree t (tmap blank_array t).
  Proof.
    split; [now rewrite structure_tmap|]. rewrite leaves_tmap. induction (leaves t); cbn; constructor; auto. split; reflexivity.
  Qed.
  Lemma like_blank s : like s (blank s).
  Proof.
    assert (D : forall d, like_dict d (blank_dict d)).
    { intros d. unfold blank_dict. induction d; cbn; constructor; auto. split; [reflexivity|apply like_blank_tree]. }
    constructor; cbn; auto; split; reflexivity.
  Qed.
End Blank.
Lemma rr_trans {A B C} (R : A -> B -> Prop) (S : B -> C -> Prop) (T : A -> C -> Prop) r1 r2 r3 :
  (forall a b c, R a b -> S b c -> T a c) -> rr R r1 r2 -> rr S r2 r3 -> rr T r1 r3.
Proof. intros F. destruct r1, r2, r3; cbn; intros; try contradiction; eauto; congruence. Qed.
Lemma rr_flip {A B} (R : A -> B -> Prop) (S : B -> A -> Prop) r r' : (forall a b, R a b -> S b a) -> rr R r r' -> rr S r' r.
Proof. intros F. destruct r, r'; cbn; auto. Qed.

Lemma like_made_sym {N M} (m : made N) (m' : made M) : like_made m m' -> like_made m' m.
Proof. destruct m, m'; cbn; auto using like_sym, like_tree_sym. Qed.
Lemma like_made_trans {N M K} (m : made N) (m' : made M) (m'' : made K) : like_made m m' -> like_made m' m'' -> like_made m m''.
Proof. destruct m, m', m''; cbn; try contradiction; [apply like_trans|apply like_tree_trans]. Qed.
Lemma like_ret_sym {N M} (m : ret N) (m' : ret M) : like_ret m m' -> like_ret m' m.
Proof.
  destruct m, m'; cbn; auto using like_tree_sym. intros F. apply F2_flip in F. revert F. apply F2_impl.
  intros a b. destruct a, b; cbn; auto using like_sym, like_tree_sym.
Qed.
Lemma like_ret_trans {N M K} (m : ret N) (m' : ret M) (m'' : ret K) : like_ret m m' -> like_ret m' m'' -> like_ret m m''.
Proof.
  destruct m, m', m''; cbn; try contradiction; [|apply like_tree_trans]. apply F2_trans.
  intros a b c. destruct a, b, c; cbn; try contradiction; auto; [apply like_trans|apply like_tree_trans].
Qed.
Lemma like_layer_sym {N M} (l : layer N) (l' : layer M) : like_layer l l' -> like_layer l' l.
Proof.
  intros [A B C]. constructor.
  - intros u u' d d' U. eapply rr_flip; [|exact (A _ _ d' d (like_tree_sym _ _ U))]. intros; now apply like_made_sym.
  - intros c c' u u' H U. eapply rr_flip; [|exact (B _ _ _ _ (like_sym _ _ H) (like_tree_sym _ _ U))]. intros; now apply like_ret_sym.
  - intros c c' u u' H U. eapply rr_flip; [|exact (C _ _ _ _ (like_sym _ _ H) (like_tree_sym _ _ U))]. auto.
Qed.
Lemma like_layer_trans {N M K} (l : layer N) (l' : layer M) (l'' : layer K) : like_layer l l' -> like_layer l' l'' -> like_layer l l''.
Proof.
  intros [A B C] [A' B' C']. constructor.
  - intros u u' d d' U. eapply rr_trans; [intros; eapply like_made_trans; eassumption|exact (A _ _ d (s_zero M) (like_blank_tree u))|].
    apply A'. eapply like_tree_trans; [apply like_tree_sym, like_blank_tree|exact U].
  - intros c c' u u' H U. eapply rr_trans; [intros; eapply like_ret_trans; eassumption|exact (B _ _ _ _ (like_blank c) (like_blank_tree u))|].
    apply B'; [eapply like_trans; [apply like_sym, like_blank|exact H]|eapply like_tree_trans; [apply like_tree_sym, like_blank_tree|exact U]].
  - intros c c' u u' H U. eapply rr_trans; [intros; exact I|exact (C _ _ _ _ (like_blank c) (like_blank_tree u))|].
    apply C'; [eapply like_trans; [apply like_sym, like_blank|exact H]|eapply like_tree_trans; [apply like_tree_sym, like_blank_tree|exact U]].
Qed.
Lemma like_layer_self {N M} (l : layer N) (l' : layer M) : like_layer l l' -> traceable l.
Proof. intros H. exact (like_layer_trans _ _ _ H (like_layer_sym _ _ H)). Qed.

Section Run.
  Context {N : numsys} (l : layer N) (T : traceable l).
  Notation carry := (@carry N).

  (** Once the body has been traced, the loop cannot fail and its result looks like the rebuilt input. *)
  Lemma loop_runs check (x x0 y : carry) : carry_leaves_ok (fst (fst x)) = true ->
    rebuild x = Ok x0 -> run_layer_adapter check l x0 = Ok y -> same_abstract x y = true ->
    forall fuel z z0, rebuild z = Ok z0 -> lcarry z0 x0 -> remaining z <= fuel ->
    exists r, while_fuel fuel (run_layer_adapter check l) z = Ok r /\ lcarry r x0.
  Proof.
    intros O X B A. destruct x as [[c u] m]. destruct y as [[cy uy] my]. apply same_abstract_iff in A as [A1 A2].
    cbn [fst] in O. apply abstract_user_like in A2.
    assert (K : forall (z : carry) z0, rebuild z = Ok z0 -> snd z0 = snd z).
    { intros [[zc zu] zm] z0. unfold rebuild. destruct (flatten_controller zc) as [f td].
      intros H. apply bind_ok in H as (c1 & _ & H). apply bind_ok in H as (u1 & _ & H). injection H as <-. reflexivity. }
    induction fuel as [|fuel IH]; intros z z0 Z L F; cbn [while_fuel]; rewrite Z; cbn [bind].
    - destruct (is_act_not_complete z0) eqn:E; [|eauto]. exfalso.
      pose proof (K _ _ Z) as S. destruct z as [[zc zu] zm], z0 as [[zc0 zu0] zm0]. cbn in S, E, F. subst zm0.
      apply andb_prop in E as [_ E]. apply Z.ltb_lt in E. lia.
    - destruct (is_act_not_complete z0) eqn:E; [|eauto].
      pose proof (K _ _ Z) as S. destruct z as [[zc zu] zm], z0 as [[zc0 zu0] zm0]. cbn in S. subst zm0.
      destruct x0 as [[c0 u0] m0]. destruct L as [L1 L2]. cbn in L1, L2.
      pose proof (rr_adapter l l T check _ _ _ _ zm m0 L1 L2) as R. rewrite B in R.
      destruct (run_layer_adapter check l (zc0, zu0, zm)) as [w|e] eqn:W; [|destruct R]. cbn [bind].
      cbn [same_outcome] in R. destruct R as ([R1 R2] & Rm & _). destruct w as [[wc wu] wm]. cbn in R1, R2, Rm. subst wm.
      (* rebuild w is like rebuild y, which is like rebuild x *)
      assert (OW : carry_leaves_ok wc = true /\ abstract_ctrl wc = abstract_ctrl c).
      { pose proof (abstract_like _ _ R1) as Q. split; [|congruence].
        assert (Q2 : map abstract_leaf (fst (flatten_controller wc)) = map abstract_leaf (fst (flatten_controller c))).
        { assert (Q3 : abstract_ctrl wc = abstract_ctrl c) by congruence. exact (f_equal fst Q3). }
        unfold carry_leaves_ok in O |- *. revert Q2 O. generalize (fst (flatten_controller wc)) (fst (flatten_controller c)).
        intros q. induction q as [|a q IHq]; intros [|b q']; cbn; try discriminate; [auto|]. intros [= E1 E2] O2.
        apply andb_prop in O2 as [O2 O3]. rewrite (IHq _ E2 O3). destruct a, b; cbn in *; easy. }
      destruct OW as [O1 O2].
      pose proof (rr_rebuild wc c wu u (increase_counter zm) m O1 O2 (like_tree_trans _ _ _ R2 (like_tree_sym _ _ A2))) as RB.
      rewrite X in RB. destruct (rebuild (wc, wu, increase_counter zm)) as [w0|e] eqn:W0; [|destruct RB].
      apply (IH _ _ W0).
      + destruct w0 as [[a b] k]. cbn in RB. destruct RB as (RB1 & RB2 & _). now split.
      + cbn in E, F |- *. apply andb_prop in E as [_ E]. apply Z.ltb_lt in E. lia.
  Qed.
End Run.

Section Execute.
  Context {N M : numsys} (l : layer N) (l' : layer M) (LL : like_layer l l').

  Lemma rr_while check c c' u u' m m' : like c c' -> like_tree u u' ->
    rr lcarry (while_loop (run_layer_adapter check l) (c, u, m)) (while_loop (run_layer_adapter check l') (c', u', m')).
  Proof.
    intros H U. unfold while_loop. destruct (carry_leaves_ok c) eqn:O.
    2: { rewrite <- (leaves_ok_like _ _ H), O. reflexivity. }
    assert (O' : carry_leaves_ok c' = true) by (now rewrite <- (leaves_ok_like _ _ H)). rewrite O'. cbn [guard bind].
    pose proof (rr_rebuild c c' u u' m m' O (abstract_like _ _ H) U) as RB.
    destruct (rebuild (c, u, m)) as [x0|e] eqn:X, (rebuild (c', u', m')) as [x0'|e'] eqn:X'; cbn [same_outcome] in RB; try contradiction; [|exact RB].
    cbn [bind]. destruct x0 as [[c0 u0] m0], x0' as [[c0' u0'] m0']. destruct RB as (RC & RU & Em & Em').
    pose proof (rr_adapter l l' LL check _ _ _ _ m0 m0' RC RU) as RA.
    destruct (run_layer_adapter check l (c0, u0, m0)) as [y|e] eqn:B, (run_layer_adapter check l' (c0', u0', m0')) as [y'|e'] eqn:B';
      cbn [same_outcome] in RA; try contradiction; [|exact RA].
    cbn [bind]. destruct RA as ([YC YU] & _ & _). destruct y as [[cy uy] my], y' as [[cy' uy'] my']. cbn in YC, YU.
    assert (SA : same_abstract (c, u, m) (cy, uy, my) = same_abstract (c', u', m') (cy', uy', my')).
    { apply Bool.eq_true_iff_eq. rewrite !same_abstract_iff.
      rewrite (abstract_like _ _ H), (abstract_like _ _ YC).
      rewrite (proj1 (abstract_user_like _ _) U), (proj1 (abstract_user_like _ _) YU). reflexivity. }
    rewrite <- SA. destruct (same_abstract (c, u, m) (cy, uy, my)) eqn:A; [|reflexivity]. cbn [guard bind]. symmetry in SA.
    destruct (loop_runs l (like_layer_self _ _ LL) check (c, u, m) _ _ O X B A (remaining (c, u, m)) _ _ X) as (r & Er & Lr); auto.
    { split; [apply like_refl|apply like_tree_refl]. }
    destruct (loop_runs l' (like_layer_self _ _ (like_layer_sym _ _ LL)) check (c', u', m') _ _ O' X' B' SA (remaining (c', u', m')) _ _ X') as (r' & Er' & Lr'); auto.
    { split; [apply like_refl|apply like_tree_refl]. }
    rewrite Er, Er'. cbn. destruct Lr as [L1 L2], Lr' as [L1' L2']. cbn in L1, L2, L1', L2'. split.
    - eapply like_trans; [exact L1|]. eapply like_trans; [exact RC|]. now apply like_sym.
    - eapply like_tree_trans; [exact L2|]. eapply like_tree_trans; [exact RU|]. now apply like_tree_sym.
  Qed.
  Lemma rr_execute u u' d d' b b' check : like_tree u u' ->
    rr lpair (execute_act l u d b check) (execute_act l' u' d' b' check).
  Proof.
    intros U. unfold execute_act. eapply rr_bind; [exact (rr_made l l' LL check _ _ d d' U)|]. intros m m' Hm.
    destruct m as [c|t], m' as [c'|t']; cbn in Hm; try contradiction; [|reflexivity].
    eapply rr_bind; [exact (like_lazy _ _ LL _ _ _ _ Hm U)|]. intros _ _ _.
    eapply rr_bind; [exact (rr_while check _ _ _ _ (mkM 0 b) (mkM 0 b') Hm U)|].
    intros [[c1 u1] m1] [[c1' u1'] m1'] L. exact L.
  Qed.
End Execute.
