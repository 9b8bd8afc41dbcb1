(** * Proofs: controllers as pytrees *)
From Coq Require Import Permutation Sorted.
From Verif Require Import Base PyTree Tensor Num States Controller Layers StateSpec PytreeSpec Wf
  BaseFacts TensorFacts PyTreeFacts StateFacts.

Definition dval_map {V W} (g : V -> W) (d : dict V) : dict W := map (fun kv => (fst kv, g (snd kv))) d.
Lemma dkeys_val_map {V W} (g : V -> W) d : dkeys (dval_map g d) = dkeys d.
Proof. unfold dkeys, dval_map. rewrite map_map. reflexivity. Qed.
Lemma dvals_val_map {V W} (g : V -> W) d : dvals (dval_map g d) = map g (dvals d).
Proof. unfold dvals, dval_map. rewrite !map_map. reflexivity. Qed.
Lemma dget_val_map {V W} (g : V -> W) d k : dget k (dval_map g d) = option_map g (dget k d).
Proof. induction d as [|[k' v] d IH]; cbn; [reflexivity|]. destruct (String.eqb k k'); [reflexivity|exact IH]. Qed.
Lemma insert_val_map {V W} (g : V -> W) kv d : insert_item (fst kv, g (snd kv)) (dval_map g d) = dval_map g (insert_item kv d).
Proof. induction d as [|kv' d IH]; cbn; [reflexivity|]. destruct (String.ltb _ _); cbn; [reflexivity|]. f_equal. exact IH. Qed.
Lemma sort_val_map {V W} (g : V -> W) d : sort_items (dval_map g d) = dval_map g (sort_items d).
Proof. induction d as [|kv d IH]; [reflexivity|]. change (sort_items (dval_map g (kv :: d))) with (insert_item (fst kv, g (snd kv)) (sort_items (dval_map g d))).
  rewrite IH. apply insert_val_map. Qed.

Definition key_lt (a b : string) : Prop := String.ltb a b = true.
Lemma key_lt_irrefl a : ~ key_lt a a.
Proof. unfold key_lt. rewrite ltb_compare. assert (X := str_compare_anti a a). intros E. rewrite E in X. discriminate. Qed.
Lemma key_lt_trans a b c : key_lt a b -> key_lt b c -> key_lt a c.
Proof.
  intros H1 H2. apply key_le_lt; [eapply key_le_trans; apply key_lt_le; eassumption|]. intros ->.
  apply key_lt_le in H2. unfold key_le in H2. unfold key_lt in H1. congruence.
Qed.
Lemma sorted_ext {V} (d d' : dict V) : StronglySorted key_lt (dkeys d) -> StronglySorted key_lt (dkeys d') ->
  (forall k, dget k d = dget k d') -> d = d'.
Proof.
  revert d'. induction d as [|[k v] d IH]; intros [|[k' v'] d'] S S' E.
  - reflexivity.
  - specialize (E k'). cbn in E. rewrite String.eqb_refl in E. discriminate.
  - specialize (E k). cbn in E. rewrite String.eqb_refl in E. discriminate.
  - cbn in S, S'. apply StronglySorted_inv in S as [S Fo], S' as [S' Fo'].
    assert (K : k = k').
    { destruct (String.eqb k k') eqn:K; [now apply String.eqb_eq|]. exfalso.
      assert (A : In k (dkeys d')).
      { specialize (E k). cbn in E. rewrite String.eqb_refl, K in E. apply dget_keys. eauto. }
      assert (B : In k' (dkeys d)).
      { specialize (E k'). cbn in E. rewrite String.eqb_refl, String.eqb_sym, K in E. apply dget_keys. eauto. }
      rewrite Forall_forall in Fo, Fo'. apply (key_lt_irrefl k). eapply key_lt_trans; [apply Fo, B|apply Fo', A]. }
    subst k'. assert (v = v') as ->.
    { specialize (E k). cbn in E. rewrite String.eqb_refl in E. congruence. }
    f_equal. apply IH; auto. intros x. specialize (E x). cbn in E. destruct (String.eqb x k) eqn:X; [|exact E].
    apply String.eqb_eq in X. subst x. rewrite Forall_forall in Fo, Fo'.
    assert (A : ~ In k (dkeys d)) by (intros A; now apply Fo, key_lt_irrefl in A).
    assert (B : ~ In k (dkeys d')) by (intros B; now apply Fo', key_lt_irrefl in B).
    apply dget_none in A, B. congruence.
Qed.
Lemma sort_strict {V} (d : dict V) : NoDup (dkeys d) -> StronglySorted key_lt (dkeys (sort_items d)).
Proof.
  intros ND. assert (S := sort_sorted d). assert (N' := nodup_sort d ND).
  induction S as [|k ks S IH Fo]; [constructor|]. apply NoDup_cons_iff in N' as [Hk N']. constructor; [auto|].
  rewrite Forall_forall in Fo |- *. intros x Hx. apply key_le_lt; auto. intros ->. contradiction.
Qed.
Lemma sort_same {V} (d d' : dict V) : NoDup (dkeys d) -> NoDup (dkeys d') -> (forall k, dget k d = dget k d') -> sort_items d = sort_items d'.
Proof. intros A B E. apply sorted_ext; auto using sort_strict. intros k. now rewrite !dget_sort. Qed.

Section PytreeFacts.
  Context {N : numsys}.
  Notation st := (state N).
  Notation tr := (tree (array N)).

  Lemma tmap_tmap {A B C} (f : A -> B) (g : B -> C) t : tmap g (tmap f t) = tmap (fun x => g (f x)) t.
  Proof. apply tree_ext; [now rewrite !structure_tmap|]. now rewrite !leaves_tmap, map_map. Qed.
  Lemma dict_tree_structure (d : dict tr) : structure (dict_tree d) = Node (NDict (dkeys (sort_items d))) (map structure (dvals (sort_items d))).
  Proof.
    unfold dict_tree. rewrite structure_Node, map_map. f_equal. apply map_ext. intros t. apply structure_tmap.
  Qed.
  Lemma dict_ext {V} (d d' : dict V) : dkeys d = dkeys d' -> dvals d = dvals d' -> d = d'.
  Proof.
    revert d'. induction d as [|[k v] d IH]; intros [|[k' v'] d'] E F; try discriminate; [reflexivity|].
    cbn in E, F. injection E as -> E. injection F as -> F. f_equal. now apply IH.
  Qed.
  Lemma dict_tree_same (d d' : dict tr) : NoDup (dkeys d) -> NoDup (dkeys d') ->
    structure (dict_tree d) = structure (dict_tree d') <-> same_entries d d'.
  Proof.
    intros A B. rewrite !dict_tree_structure. split.
    - intros [= E F] k. rewrite <- (dget_sort d k A), <- (dget_sort d' k B), <- !dget_val_map. f_equal.
      apply dict_ext; [now rewrite !dkeys_val_map|now rewrite !dvals_val_map].
    - intros E. assert (S : dval_map structure (sort_items d) = dval_map structure (sort_items d')).
      { rewrite <- !sort_val_map. apply sort_same; try now rewrite dkeys_val_map. intros k. rewrite !dget_val_map. apply E. }
      rewrite <- !dvals_val_map, S. f_equal. f_equal. apply (f_equal dkeys) in S. now rewrite !dkeys_val_map in S.
  Qed.
  Lemma structure_lengths (s s' : st) : map structure (field_trees s) = map structure (field_trees s') ->
    map (@length _) (map leaves (field_trees s)) = map (@length _) (map leaves (field_trees s')).
  Proof.
    intros E. rewrite !map_map. assert (X : forall t : tree (pyleaf N), length (leaves t) = length (leaves (structure t))) by (intros t; now rewrite length_leaves_structure).
    rewrite !(map_ext _ _ X). rewrite <- !(map_map structure (fun t => length (leaves t))). now rewrite E.
  Qed.
  Theorem treedef_same (s s' : st) : proper s -> proper s' -> tree_structure s = tree_structure s' <-> same_layout s s'.
  Proof.
    intros (D & A & U) (D' & A' & U').
    unfold tree_structure, flatten_controller, tree_flatten_state, state_flatten, save. cbn [snd].
    transitivity (map structure (field_trees s) = map structure (field_trees s')).
    - split; [congruence|]. intros E. rewrite (structure_lengths s s' E). now rewrite E.
    - unfold same_layout. rewrite <- (dict_tree_same _ _ D D'), <- (dict_tree_same _ _ A A'), <- (dict_tree_same _ _ U U').
      unfold field_trees. cbn [map].
      generalize (structure (dict_tree (defaults s))) (structure (dict_tree (accumulators s))) (structure (dict_tree (updates s)))
        (structure (dict_tree (defaults s'))) (structure (dict_tree (accumulators s'))) (structure (dict_tree (updates s'))).
      intros a1 a2 a3 b1 b2 b3. destruct (error_mode s), (error_mode s'); cbn [structure tmap map tnone]; split.
      + intros [= -> -> ->]. repeat split; discriminate.
      + intros (-> & -> & -> & _). reflexivity.
      + discriminate.
      + intros (_ & _ & _ & _ & Q). discriminate (Q eq_refl).
      + discriminate.
      + intros (_ & _ & _ & Q & _). discriminate (Q eq_refl).
      + intros [= -> -> ->]. repeat split.
      + intros (-> & -> & -> & _). reflexivity.
  Qed.

  (** unflattening other leaves *)
  Lemma unflatten_others (ts ts' : list (tree (pyleaf N))) : map structure ts' = map structure ts ->
    map (@length _) (map leaves ts') = map (@length _) (map leaves ts) ->
    tree_unflatten_state (map structure ts, map (@length _) (map leaves ts)) (concat (map leaves ts')) = state_of_trees ts'.
  Proof.
    intros E L. unfold tree_unflatten_state, state_unflatten. cbn [fst snd]. rewrite <- L, split_by_concat. cbn [bind].
    rewrite <- E, unflatten_all. reflexivity.
  Qed.
  Lemma tmap_dict_tree f g (d : dict tr) : tmap (on_leaves f g) (dict_tree d) = dict_tree (dval_map (tmap f) d).
  Proof.
    unfold dict_tree. rewrite sort_val_map, dkeys_val_map, dvals_val_map. cbn [tmap]. f_equal. rewrite !map_map. apply map_ext.
    intros t. rewrite !tmap_tmap. reflexivity.
  Qed.
  Definition image_of (f : array N -> array N) (g : scl N -> scl N) (s : st) : st :=
    mkState (g (epsilon s)) (f (iterations s)) (f (residuals s)) (f (probabilities s)) (dval_map (tmap f) (defaults s))
      (dval_map (tmap f) (accumulators s)) (dval_map (tmap f) (updates s)) (g (depression_constant s)) (error_mode s).
  Lemma field_trees_image f g s : map (tmap (on_leaves f g)) (field_trees s) = field_trees (image_of f g s).
  Proof.
    unfold field_trees, image_of. cbn [map epsilon iterations residuals probabilities defaults accumulators updates depression_constant error_mode].
    rewrite !tmap_dict_tree. cbn [tmap on_leaves]. destruct (error_mode s); reflexivity.
  Qed.
  Lemma map_structure_tmap {A B} (f : A -> B) ts : map structure (map (tmap f) ts) = map structure ts.
  Proof. rewrite map_map. apply map_ext. intros t. apply structure_tmap. Qed.
  Lemma state_of_field_trees (s : st) : state_of_trees (field_trees s) = Ok (canonical s).
  Proof. unfold field_trees, state_of_trees. rewrite !as_dict_tree. unfold canonical. cbn [as_scl as_arr]. destruct (error_mode s); reflexivity. Qed.
  Theorem tree_map_ok f g (s : st) : tree_map (on_leaves f g) s = Ok (canonical (image_of f g s)).
  Proof.
    unfold tree_map, unflatten_controller, tree_structure, tree_leaves, flatten_controller, tree_flatten_state, state_flatten, save.
    cbn [fst snd]. rewrite concat_map.
    assert (E : map (map (on_leaves f g)) (map leaves (field_trees s)) = map leaves (map (tmap (on_leaves f g)) (field_trees s))).
    { rewrite !map_map. apply map_ext. intros t. now rewrite leaves_tmap. }
    rewrite E, unflatten_others.
    - rewrite field_trees_image, state_of_field_trees. reflexivity.
    - apply map_structure_tmap.
    - rewrite !map_map. apply map_ext. intros t. now rewrite leaves_tmap, map_length.
  Qed.
  Lemma image_of_image f g (s : st) : proper s -> image f g s (canonical (image_of f g s)).
  Proof.
    intros (D & A & U). constructor; unfold canonical, image_of;
      cbn [epsilon iterations residuals probabilities defaults accumulators updates depression_constant error_mode]; auto; intros k;
      rewrite dget_sort, dget_val_map; auto; now rewrite dkeys_val_map.
  Qed.

  (** ** Wrong numbers of leaves *)
  Lemma unflatten_aux_value {L} (td : treedef) (q : list L) e : unflatten_aux td q = Err e -> e = ValueError.
  Proof.
    revert q e. induction td as [u|n cs IH] using tree_ind'; intros q e.
    - cbn. destruct q; congruence.
    - rewrite unflatten_aux_Node. intros H.
      assert (G : forall e, unflatten_list cs q = Err e -> e = ValueError).
      { clear H. revert q. induction IH as [|c cs Hc _ IHc]; intros q e0; cbn [unflatten_list]; [discriminate|]. fold (@unflatten_list L).
        destruct (unflatten_aux c q) as [[t q1]|e1] eqn:E1; cbn [bind]; [|intros [= <-]; eauto].
        destruct (unflatten_list cs q1) as [[ts q2]|e2] eqn:E2; cbn [bind]; [discriminate|intros [= <-]; eauto]. }
      destruct (unflatten_list cs q) as [[ts q2]|e2]; cbn [bind] in H; [discriminate|]. injection H as <-. auto.
  Qed.
  Lemma unflatten_value {L} (td : treedef) (q : list L) e : unflatten td q = Err e -> e = ValueError.
  Proof.
    unfold unflatten. destruct (unflatten_aux td q) as [[t q']|x] eqn:E; cbn [bind].
    - destruct q'; congruence.
    - intros [= <-]. eauto using unflatten_aux_value.
  Qed.
  Lemma unflatten_wrong {L} (td : treedef) (q : list L) : length q <> length (leaves td) -> unflatten td q = Err ValueError.
  Proof.
    intros H. destruct (unflatten td q) as [t|e] eqn:E; [|f_equal; eauto using unflatten_value].
    apply unflatten_inv in E as [<- <-]. elim H. now rewrite length_leaves_structure.
  Qed.
  Lemma split_by_wrong ns (q : list (pyleaf N)) : length q <> list_sum ns -> split_by ns q = Err ValueError.
  Proof.
    revert q. induction ns as [|n ns IH]; intros q H; cbn in *; [destruct q; [now elim H|reflexivity]|].
    destruct (Nat.leb n (length q)) eqn:L; [|reflexivity]. apply Nat.leb_le in L.
    rewrite IH; [reflexivity|]. rewrite skipn_length. unfold list_sum in *. lia.
  Qed.
  Lemma length_concat {A} (l : list (list A)) : length (concat l) = list_sum (map (@length _) l).
  Proof. induction l; cbn; [reflexivity|]. now rewrite app_length, IHl. Qed.
  Lemma rebuild_wrong (s : st) (q : list (pyleaf N)) : length q <> length (tree_leaves s) -> unflatten_controller (tree_structure s) q = Err ValueError.
  Proof.
    unfold unflatten_controller, tree_structure, tree_leaves, flatten_controller, tree_flatten_state, state_flatten, tree_unflatten_state, save.
    cbn [fst snd]. intros H. rewrite split_by_wrong; [reflexivity|]. now rewrite <- length_concat.
  Qed.

  (** ** Two controllers *)
  Definition zipw (F : pyleaf N -> pyleaf N -> pyleaf N) (l l' : list (pyleaf N)) := map (fun xy => F (fst xy) (snd xy)) (combine l l').
  Lemma zipw_length F l l' : length l = length l' -> length (zipw F l l') = length l.
  Proof. intros E. unfold zipw. rewrite map_length, combine_length. lia. Qed.
  Lemma zipw_app F a a' b b' : length a = length a' -> zipw F (a ++ b) (a' ++ b') = zipw F a a' ++ zipw F b b'.
  Proof.
    revert a'. induction a as [|x a IH]; intros [|y a'] E; try discriminate; [reflexivity|]. cbn in *. f_equal. apply IH. lia.
  Qed.
  Lemma zipw_concat F (ls ls' : list (list (pyleaf N))) : map (@length _) ls = map (@length _) ls' ->
    zipw F (concat ls) (concat ls') = concat (map (fun p => zipw F (fst p) (snd p)) (combine ls ls')).
  Proof.
    revert ls'. induction ls as [|l ls IH]; intros [|l' ls'] E; try discriminate; [reflexivity|]. cbn [concat map combine fst snd] in *. injection E as E1 E2.
    rewrite zipw_app by exact E1. f_equal. now apply IH.
  Qed.
  (** the tree with the structure of [t1] and the given leaves *)
  Lemma zip_tree (f : array N -> array N -> array N) (t1 t2 : tr) : structure t1 = structure t2 -> exists t', tree_image2 f t1 t2 t'.
  Proof.
    intros E. destruct (unflatten_ok (structure t1) (map (fun ab => f (fst ab) (snd ab)) (combine (leaves t1) (leaves t2)))) as (t' & _ & L & S).
    - rewrite map_length, combine_length, length_leaves_structure, (structure_eq_length _ _ E). lia.
    - exists t'. split; [exact S|]. split; [congruence|exact L].
  Qed.
  Lemma zip_dict (f : array N -> array N -> array N) g (d1 d2 : dict tr) : NoDup (dkeys d1) -> NoDup (dkeys d2) -> same_entries d1 d2 ->
    exists d', (forall k, entry_image2 f (dget k d1) (dget k d2) (dget k d')) /\ NoDup (dkeys d') /\
      leaves (dict_tree d') = zipw (on_leaves2 f g) (leaves (dict_tree d1)) (leaves (dict_tree d2)) /\
      structure (dict_tree d') = structure (dict_tree d1).
  Proof.
    intros A B E. set (s1 := sort_items d1). set (s2 := sort_items d2).
    assert (S : dval_map structure s1 = dval_map structure s2).
    { unfold s1, s2. rewrite <- !sort_val_map. apply sort_same; try now rewrite dkeys_val_map. intros k. rewrite !dget_val_map. apply E. }
    assert (G : forall a b : dict tr, dval_map structure a = dval_map structure b -> exists c, dkeys c = dkeys a /\
       (forall k, entry_image2 f (dget k a) (dget k b) (dget k c)) /\
       map structure (dvals c) = map structure (dvals a) /\
       flat_map leaves (map (tmap LArr) (dvals c)) = zipw (on_leaves2 f g) (flat_map leaves (map (tmap LArr) (dvals a))) (flat_map leaves (map (tmap LArr) (dvals b)))).
    { induction a as [|[k t] a IH]; intros [|[k' t'] b] Eab; try discriminate.
      - exists []. repeat split.
      - cbn in Eab. injection Eab as -> Et Eab. destruct (IH b Eab) as (c & Kc & Lc & Sc & Zc). destruct (zip_tree f t t' Et) as (u & Su & Su' & Lu).
        exists ((k', u) :: c). split; [unfold dkeys in *; cbn; now rewrite Kc|]. split; [|split].
        + intros x. cbn. destruct (String.eqb x k'); [|apply Lc]. split; auto.
        + unfold dvals in *. cbn [map snd]. now rewrite Su, Sc.
        + cbn [dvals map snd flat_map]. rewrite !leaves_tmap. rewrite zipw_app by (rewrite !map_length; now apply structure_eq_length).
          unfold dvals in Zc. rewrite Zc. f_equal. rewrite Lu. unfold zipw.
          clear. generalize (leaves t) (leaves t'). induction l as [|x l IH]; intros [|y l']; cbn; auto. now rewrite IH. }
    destruct (G s1 s2 S) as (c & Kc & Lc & Sc & Zc).
    assert (Srt : sort_items c = c).
    { apply sort_fixed. rewrite Kc. exact (sort_strict d1 A). }
    exists c. split; [|split; [|split]].
    - intros k. specialize (Lc k). unfold s1, s2 in Lc. now rewrite !dget_sort in Lc by assumption.
    - rewrite Kc. now apply nodup_sort.
    - unfold dict_tree. rewrite Srt. cbn [leaves]. exact Zc.
    - rewrite !dict_tree_structure, Srt. fold s1. now rewrite Kc, Sc.
  Qed.

  Lemma same_treedef_eq (s1 s2 : st) : same_treedef s1 s2 = true <-> tree_structure s1 = tree_structure s2.
  Proof.
    unfold same_treedef, tdl_eqb. destruct (tree_structure s1) as [a n], (tree_structure s2) as [b m]. cbn [fst snd].
    rewrite andb_true_iff, td_eqb_eq, shape_eqb_eq. split; [intros [[= ->] ->]; reflexivity|intros [= -> ->]; auto].
  Qed.
  Theorem tree_map2_ok f g (s1 s2 : st) : proper s1 -> proper s2 -> same_layout s1 s2 ->
    exists s', tree_map2 (on_leaves2 f g) s1 s2 = Ok s' /\ image2 f g s1 s2 s'.
  Proof.
    intros P1 P2 SL. assert (T := proj2 (treedef_same s1 s2 P1 P2) SL). unfold tree_map2.
    rewrite (proj2 (same_treedef_eq s1 s2) T). destruct P1 as (D1 & A1 & U1), P2 as (D2 & A2 & U2), SL as (SD & SA & SU & SM).
    destruct (zip_dict f g _ _ D1 D2 SD) as (d & Id & Nd & Ld & Td).
    destruct (zip_dict f g _ _ A1 A2 SA) as (a & Ia & Na & La & Ta).
    destruct (zip_dict f g _ _ U1 U2 SU) as (u & Iu & Nu & Lu & Tu).
    set (s0 := mkState (g (epsilon s1) (epsilon s2)) (f (iterations s1) (iterations s2)) (f (residuals s1) (residuals s2))
                (f (probabilities s1) (probabilities s2)) d a u (g (depression_constant s1) (depression_constant s2)) (error_mode s1)).
    assert (ST : map structure (field_trees s0) = map structure (field_trees s1)).
    { unfold field_trees, s0. cbn [map epsilon iterations residuals probabilities defaults accumulators updates depression_constant error_mode].
      rewrite Td, Ta, Tu. reflexivity. }
    assert (LV : zipw (on_leaves2 f g) (tree_leaves s1) (tree_leaves s2) = concat (map leaves (field_trees s0))).
    { assert (X : map structure (field_trees s1) = map structure (field_trees s2)).
      { unfold tree_structure, flatten_controller, tree_flatten_state, state_flatten, save in T. cbn [snd] in T. congruence. }
      unfold tree_leaves, flatten_controller, tree_flatten_state, state_flatten, save. cbn [fst].
      rewrite (zipw_concat _ _ _ (structure_lengths s1 s2 X)). f_equal. unfold field_trees, s0.
      cbn [map combine fst snd epsilon iterations residuals probabilities defaults accumulators updates depression_constant error_mode].
      rewrite Ld, La, Lu. destruct (error_mode s1) as [m1|], (error_mode s2) as [m2|];
        [reflexivity|discriminate (proj2 SM eq_refl)|discriminate (proj1 SM eq_refl)|reflexivity]. }
    exists (canonical s0). split.
    - unfold unflatten_controller, tree_structure, flatten_controller, tree_flatten_state, state_flatten, save.
      cbn [fst snd]. change (map (fun xy => on_leaves2 f g (fst xy) (snd xy)) (combine (tree_leaves s1) (tree_leaves s2)))
        with (zipw (on_leaves2 f g) (tree_leaves s1) (tree_leaves s2)).
      rewrite LV, unflatten_others; [|exact ST|now apply structure_lengths]. now rewrite state_of_field_trees.
    - constructor; unfold canonical, s0;
        cbn [epsilon iterations residuals probabilities defaults accumulators updates depression_constant error_mode]; auto; intros k;
        rewrite dget_sort; auto.
  Qed.

  (** ** The leaves *)
  Lemma dict_tree_leaves (d : dict tr) l : NoDup (dkeys d) ->
    In l (leaves (dict_tree d)) <-> exists a, l = LArr a /\ in_entries a d.
  Proof.
    intros ND. unfold dict_tree, in_entries. cbn [leaves]. rewrite in_flat_map. split.
    - intros (t & Ht & Hl). apply in_map_iff in Ht as (t0 & <- & Ht). rewrite leaves_tmap in Hl. apply in_map_iff in Hl as (a & <- & Ha).
      exists a. split; [reflexivity|]. unfold dvals in Ht. apply in_map_iff in Ht as ([k t1] & <- & Hk). exists k, t1. split; [|exact Ha].
      apply dget_nodup; [exact ND|]. eapply Permutation_in; [apply sort_items_perm|exact Hk].
    - intros (a & -> & k & t & Hk & Ha). exists (tmap LArr t). split.
      + apply in_map. unfold dvals. apply in_map_iff. exists (k, t). split; [reflexivity|].
        eapply Permutation_in; [apply Permutation_sym, sort_items_perm|]. now apply dget_In.
      + rewrite leaves_tmap. now apply in_map.
  Qed.
  Theorem leaves_are (s : st) l : proper s -> In l (tree_leaves s) <->
    l = LScl (epsilon s) \/ l = LScl (depression_constant s) \/ (exists m, error_mode s = Some m /\ l = LStr m) \/
    exists a, l = LArr a /\ holds s a.
  Proof.
    intros (D & A & U). unfold tree_leaves, flatten_controller, tree_flatten_state, state_flatten, save. cbn [fst].
    unfold field_trees. cbn [map concat]. rewrite !in_app_iff, !dict_tree_leaves by assumption. unfold holds. cbn [leaves In].
    assert (M : In l (leaves match error_mode s with Some m => Leaf (LStr m) | None => tnone end) <-> exists m, error_mode s = Some m /\ l = LStr m).
    { destruct (error_mode s) as [m|]; cbn; split; try tauto.
      - intros [<-|[]]. eauto.
      - intros (m' & [= <-] & ->). auto.
      - intros (m' & E & _). discriminate. }
    rewrite M. split.
    - intros H. repeat (destruct H as [H|H]; try contradiction); auto.
      all: try (right; right; right; destruct H as (a & -> & H); eauto 10).
      all: try (right; right; right; subst l; eexists; split; [reflexivity|]; tauto).
    - intros [->|[->|[H|(a & -> & H)]]]; auto 20.
      destruct H as [->|[->|[->|[H|[H|H]]]]]; eauto 20.
  Qed.
  Theorem number_of_leaves (s : st) : length (tree_leaves s) =
    5 + list_sum (map (fun t => length (leaves t)) (dvals (defaults s) ++ dvals (accumulators s) ++ dvals (updates s))) +
    match error_mode s with Some _ => 1 | None => 0 end.
  Proof.
    unfold tree_leaves, flatten_controller, tree_flatten_state, state_flatten, save. cbn [fst].
    assert (G : forall d : dict tr, length (leaves (dict_tree d)) = list_sum (map (fun t => length (leaves t)) (dvals d))).
    { intros d. unfold dict_tree. cbn [leaves]. transitivity (list_sum (map (fun t => length (leaves t)) (dvals (sort_items d)))).
      - generalize (dvals (sort_items d)). induction l as [|t l IH]; cbn [map flat_map list_sum fold_right]; [reflexivity|].
        rewrite app_length, leaves_tmap, map_length, IH. reflexivity.
      - assert (P : Permutation (map (fun t => length (leaves t)) (dvals (sort_items d))) (map (fun t => length (leaves t)) (dvals d))).
        { apply Permutation_map. unfold dvals. apply Permutation_map, sort_items_perm. }
        unfold list_sum. induction P; cbn; lia. }
    rewrite length_concat, map_map. unfold field_trees. cbn [map]. rewrite !G, !map_app, !list_sum_app.
    cbn [list_sum fold_right leaves length]. destruct (error_mode s); cbn [leaves length flat_map tnone]; lia.
  Qed.
End PytreeFacts.
