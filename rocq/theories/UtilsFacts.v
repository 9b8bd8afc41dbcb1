(** * Facts about core/utils.py. *)
From Verif Require Import Base PyTree Tensor Num Utils UtilsSpec.
From Verif Require Import BaseFacts TensorFacts PyTreeFacts ControllerFacts.

(** ** can_right_broadcast *)
Definition dim_ok (x y : nat) : Prop := x = y \/ x = 1 \/ y = 1.
Lemma crb_loop_spec za zb : length za = length zb -> crb_loop za zb = true <-> Forall2 dim_ok za zb.
Proof.
  revert zb. induction za as [|x za IH]; intros [|y zb] H; cbn; try discriminate.
  - split; constructor.
  - injection H as H. specialize (IH zb H).
    destruct (Nat.eqb_spec x 1); cbn [orb].
    + rewrite IH. split; [intros F; constructor; [unfold dim_ok; auto|exact F]|intros F; now inversion F].
    + destruct (Nat.eqb_spec y 1); cbn [orb].
      * rewrite IH. split; [intros F; constructor; [unfold dim_ok; auto|exact F]|intros F; now inversion F].
      * destruct (Nat.eqb_spec x y).
        -- rewrite IH. split; [intros F; constructor; [unfold dim_ok; auto|exact F]|intros F; now inversion F].
        -- split; [discriminate|]. intros F. inversion F as [|? ? ? ? D]; subst. destruct D as [D|[D|D]]; lia.
Qed.
Lemma Forall2_rev' {A B} (P : A -> B -> Prop) l1 l2 : Forall2 P l1 l2 -> Forall2 P (rev l1) (rev l2).
Proof.
  induction 1; cbn; [constructor|]. apply Forall2_app; [assumption|]. repeat constructor; assumption.
Qed.
Lemma Forall2_nth_iff {A B} (P : A -> B -> Prop) l1 l2 :
  Forall2 P l1 l2 <-> length l1 = length l2 /\
    forall i x y, nth_error l1 i = Some x -> nth_error l2 i = Some y -> P x y.
Proof.
  split.
  - induction 1 as [|x y l1 l2 Hxy F [L IH]]; cbn; [split; [reflexivity|intros [|i]; discriminate]|].
    split; [now rewrite L|]. intros [|i] a b; cbn; [intros [= <-] [= <-]; exact Hxy|apply IH].
  - revert l2. induction l1 as [|x l1 IH]; intros [|y l2] [L H]; try discriminate; constructor.
    + exact (H 0 x y eq_refl eq_refl).
    + apply IH. split; [now injection L|]. intros i. exact (H (S i)).
Qed.
Lemma rev_last_n {A} n (l : list A) : n <= length l -> rev (last_n n l) = firstn n (rev l).
Proof.
  intros H. unfold last_n. rewrite firstn_rev. reflexivity.
Qed.
Lemma last_n_length {A} n (l : list A) : n <= length l -> length (last_n n l) = n.
Proof. intros H. unfold last_n. rewrite skipn_length. lia. Qed.
Lemma nth_error_firstn' {A} n (l : list A) i : i < n -> nth_error (firstn n l) i = nth_error l i.
Proof.
  revert l i. induction n as [|n IH]; intros l i H; [lia|]. destruct l as [|x l], i; cbn; auto. apply IH. lia.
Qed.
Theorem crb_compatible sa sb : can_right_broadcast sa sb = true <-> compatible sa sb.
Proof.
  unfold can_right_broadcast. set (o := Nat.min (length sa) (length sb)).
  assert (E : Forall2 dim_ok (last_n o sa) (last_n o sb) <-> compatible sa sb).
  { assert (R : Forall2 dim_ok (last_n o sa) (last_n o sb) <-> Forall2 dim_ok (firstn o (rev sa)) (firstn o (rev sb))).
    { rewrite <- !rev_last_n by (unfold o; lia). split; intros F; [now apply Forall2_rev'|].
      apply Forall2_rev' in F. now rewrite !rev_involutive in F. }
    rewrite R, Forall2_nth_iff. split.
    - intros [_ H] i x y Hx Hy. apply (H i); rewrite nth_error_firstn'; auto;
        apply nth_error_some_lt in Hx; apply nth_error_some_lt in Hy; rewrite rev_length in *; unfold o; lia.
    - intros H. split; [rewrite !firstn_length, !rev_length; unfold o; lia|].
      intros i x y Hx Hy. assert (Hi : i < o).
      { apply nth_error_some_lt in Hx. rewrite firstn_length in Hx. lia. }
      rewrite nth_error_firstn' in Hx, Hy by exact Hi. exact (H i x y Hx Hy). }
  rewrite <- E. destruct (Nat.eqb_spec o 0) as [Z|Z].
  - rewrite Z. split; [intros _|auto]. unfold last_n. rewrite !Nat.sub_0_r, !skipn_all. constructor.
  - apply crb_loop_spec. rewrite !last_n_length; unfold o; lia.
Qed.
Lemma bshapes_same_iff a b : length a = length b -> (exists r, bshapes_same a b = Some r) <-> Forall2 dim_ok a b.
Proof.
  revert b. induction a as [|x a IH]; intros [|y b] H; cbn; try discriminate.
  - split; [constructor|eauto].
  - injection H as H. specialize (IH b H). destruct (bshapes_same a b) as [r|].
    + assert (F : Forall2 dim_ok a b) by (apply IH; eauto).
      destruct (Nat.eqb_spec x y); [split; [intros _; constructor; [unfold dim_ok; auto|exact F]|eauto]|].
      destruct (Nat.eqb_spec x 1); [split; [intros _; constructor; [unfold dim_ok; auto|exact F]|eauto]|].
      destruct (Nat.eqb_spec y 1); [split; [intros _; constructor; [unfold dim_ok; auto|exact F]|eauto]|].
      split; [intros [r' Hr]; discriminate|]. intros G. inversion G as [|? ? ? ? D]; subst. destruct D as [D|[D|D]]; lia.
    + split; [intros [r' Hr]; discriminate|]. intros G. inversion G; subst. destruct (proj2 IH) as [r Hr]; [assumption|discriminate].
Qed.
Lemma compatible_broadcast sa sb : compatible sa sb <-> exists r, broadcast_shapes sa sb = Some r.
Proof.
  unfold broadcast_shapes. set (n := Nat.max (length sa) (length sb)).
  assert (La : length (pad_to n sa) = n) by (unfold pad_to; rewrite app_length, repeat_length; unfold n; lia).
  assert (Lb : length (pad_to n sb) = n) by (unfold pad_to; rewrite app_length, repeat_length; unfold n; lia).
  rewrite bshapes_same_iff by congruence.
  assert (Pad : forall s i x, nth_error (rev (pad_to n s)) i = Some x ->
      (i < length s /\ nth_error (rev s) i = Some x) \/ (length s <= i /\ x = 1)).
  { intros s i x. unfold pad_to. rewrite rev_app_distr. destruct (Nat.lt_ge_cases i (length s)).
    - rewrite nth_error_app1 by (rewrite rev_length; lia). auto.
    - rewrite nth_error_app2 by (rewrite rev_length; lia). intros Hx. right. split; [assumption|].
      apply nth_error_In in Hx. apply in_rev in Hx. now apply repeat_spec in Hx. }
  assert (Back : forall s i x, nth_error (rev s) i = Some x -> nth_error (rev (pad_to n s)) i = Some x).
  { intros s i x Hx. unfold pad_to. rewrite rev_app_distr, nth_error_app1; [exact Hx|]. eapply nth_error_some_lt; exact Hx. }
  split.
  - intros H. assert (F : Forall2 dim_ok (rev (pad_to n sa)) (rev (pad_to n sb))).
    { apply Forall2_nth_iff. split; [rewrite !rev_length; congruence|]. intros i x y Hx Hy.
      destruct (Pad _ _ _ Hx) as [[_ X]|[_ X]]; destruct (Pad _ _ _ Hy) as [[_ Y]|[_ Y]]; try (unfold dim_ok; auto; fail).
      exact (H i x y X Y). }
    apply Forall2_rev' in F. now rewrite !rev_involutive in F.
  - intros F i x y Hx Hy. apply Forall2_rev' in F. apply Forall2_nth_iff in F as [_ F].
    apply (F i); apply Back; assumption.
Qed.

(** ** setup_left_broadcast *)
Theorem slb_char {A} (t : tensor A) (target : list nat) :
  setup_left_broadcast t target =
  if Nat.eqb (length (shape t)) 0 then Ok t
  else if Nat.leb (length (shape t)) (length target)
  then Ok (mkT (shape t ++ repeat 1 (length target - length (shape t))) (data t)) else Err AssertionError.
Proof.
  unfold setup_left_broadcast, ndim. destruct (Nat.eqb (length (shape t)) 0); [reflexivity|].
  destruct (Nat.leb (length (shape t)) (length target)); [|reflexivity]. cbn [guard bind]. f_equal.
  set (k := length target - length (shape t)).
  rewrite <- (unsqueeze_loop_shape k t), <- (unsqueeze_loop_data k t) at 1. now destruct (unsqueeze_loop k t).
Qed.

(** ** broadcast_pytree_shape *)
Lemma fold_left_sum {A} (f : A -> nat) l a : fold_left (fun acc c => acc + f c) l a = a + fold_right (fun c n => f c + n) 0 l.
Proof. revert a. induction l as [|x l IH]; intros a; cbn; [lia|]. rewrite IH. lia. Qed.
Lemma count_leaves {M} (t : tree M) : count_linked_leaves (structure t) = length (leaves t).
Proof.
  induction t as [x|n cs IH] using tree_ind'; [reflexivity|].
  rewrite structure_Node. destruct cs as [|c cs]; [reflexivity|].
  cbn [map count_linked_leaves treedef_is_leaf leaves]. rewrite (fold_left_sum count_linked_leaves (structure c :: map structure cs) 0), Nat.add_0_l.
  change (structure c :: map structure cs) with (map structure (c :: cs)).
  induction IH as [|d ds Hd IH2 IH3]; [reflexivity|]. cbn [map fold_right flat_map].
  rewrite app_length, IH3, Hd. reflexivity.
Qed.

(** What [_replicate_leaves] yields: as [spreads], but an empty container may face anything. *)
Inductive gives {L M} : tree L -> tree M -> list L -> Prop :=
| g_leaf x t : gives (Leaf x) t (repeat x (length (leaves t)))
| g_empty n t : gives (Node n []) t []
| g_node n cs ds out : cs <> [] -> gives_list cs ds out -> gives (Node n cs) (Node n ds) out
with gives_list {L M} : list (tree L) -> list (tree M) -> list L -> Prop :=
| gl_nil : gives_list [] [] []
| gl_cons c d o cs ds os : gives c d o -> gives_list cs ds os -> gives_list (c :: cs) (d :: ds) (o ++ os).
Scheme gives_mind := Induction for gives Sort Prop
  with gives_list_mind := Induction for gives_list Sort Prop.
Scheme spreads_mind := Induction for spreads Sort Prop
  with spreads_list_mind := Induction for spreads_list Sort Prop.

Definition replicate_list {L} : list treedef -> list treedef -> list L -> res (list L * list L) :=
  fix go (cs ds : list treedef) (q : list L) : res (list L * list L) :=
    match cs, ds with
    | c :: cs', d :: ds' =>
        '(update, q1) <- rewrap RuntimeError (replicate_leaves c d q) ;;
        '(rest, q2) <- go cs' ds' q1 ;;
        Ok (update ++ rest, q2)
    | _, _ => Ok ([], q)
    end.
Lemma replicate_Node {L} n c cs m ds (q : list L) :
  ds <> [] ->
  replicate_leaves (Node n (c :: cs)) (Node m ds) q =
  (_ <- validate_children_descent n (length (c :: cs)) m (length ds) ;; replicate_list (c :: cs) ds q).
Proof. destruct ds; [congruence|]. intros _. reflexivity. Qed.

Lemma keys_loop_eq ks1 ks2 : length ks1 = length ks2 -> keys_loop ks1 ks2 = true <-> ks1 = ks2.
Proof.
  revert ks2. induction ks1 as [|k ks1 IH]; intros [|k' ks2] H; cbn; try discriminate; [tauto|].
  injection H as H. rewrite andb_true_iff, String.eqb_eq, (IH _ H). split; [intros [-> ->]; reflexivity|intros [= -> ->]; auto].
Qed.
Lemma descent_char n k m l :
  node_wf n k = true -> node_wf m l = true -> k <> 0 ->
  validate_children_descent n k m l = (if (if node_eq_dec n m then true else false) && Nat.eqb k l then Ok tt else Err RuntimeError).
Proof.
  intros Wn Wm Hk. unfold validate_children_descent. destruct (node_eq_dec n m) as [->|Ne]; cbn [andb].
  - replace (node_class_eqb m m) with true by (destruct m; cbn; now rewrite ?String.eqb_refl). cbn [guard bind].
    destruct (Nat.eqb k l); [|reflexivity]. cbn [guard bind].
    replace (keys_loop (node_keys m) (node_keys m)) with true by (symmetry; now apply keys_loop_eq). reflexivity.
  - destruct (node_class_eqb n m) eqn:C; [|reflexivity]. cbn [guard bind].
    destruct (Nat.eqb_spec k l) as [->|]; [|reflexivity]. cbn [guard bind].
    destruct n as [| | |ks1|c1], m as [| | |ks2|c2]; try discriminate C; try congruence; [|cbn in C; apply String.eqb_eq in C; congruence].
    cbn in Wn, Wm |- *. apply andb_true_iff in Wn as [Wn _], Wm as [Wm _].
    apply Nat.eqb_eq in Wn, Wm. destruct (keys_loop ks1 ks2) eqn:K; [|reflexivity].
    apply keys_loop_eq in K; [|congruence]. congruence.
Qed.

Lemma tree_wf_Node {L} n (cs : list (tree L)) :
  tree_wf (Node n cs) = true <-> node_wf n (length cs) = true /\ Forall (fun c => tree_wf c = true) cs.
Proof. cbn. rewrite andb_true_iff, forallb_forall, Forall_forall. tauto. Qed.

Theorem replicate_char {L M} (S : tree L) : forall (T : tree M),
  tree_wf S = true -> tree_wf T = true ->
  (exists out, gives S T out /\
     forall q, replicate_leaves (structure S) (structure T) (leaves S ++ q) = Ok (out, q)) \/
  ((forall out, ~ gives S T out) /\
     forall q, replicate_leaves (structure S) (structure T) (leaves S ++ q) = Err RuntimeError).
Proof.
  induction S as [x|n cs IH] using tree_ind'; intros T WS WT.
  - left. exists (repeat x (length (leaves T))). split; [constructor|].
    intros q. cbn. now rewrite count_leaves.
  - destruct cs as [|c cs].
    { left. exists []. split; [constructor|]. reflexivity. }
    destruct T as [y|m ds].
    { right. split; [intros out G; inversion G|]. intros q. reflexivity. }
    destruct ds as [|d ds].
    { right. split; [|intros q; reflexivity]. intros out G; inversion G as [| |? ? ? ? ? GL]; subst. inversion GL. }
    apply tree_wf_Node in WS as [Wn Wcs], WT as [Wm Wds].
    rewrite !structure_Node.
    assert (E : forall q : list L,
      replicate_leaves (Node n (map structure (c :: cs))) (Node m (map structure (d :: ds))) (leaves (Node n (c :: cs)) ++ q) =
      (_ <- (if (if node_eq_dec n m then true else false) && Nat.eqb (length (c :: cs)) (length (d :: ds)) then Ok tt else Err RuntimeError) ;;
       replicate_list (map structure (c :: cs)) (map structure (d :: ds)) (leaves (Node n (c :: cs)) ++ q))).
    { intros q. rewrite <- (descent_char n (length (c :: cs)) m (length (d :: ds)) Wn Wm) by discriminate.
      cbn [map]. rewrite replicate_Node by discriminate. cbn [length]. now rewrite !map_length. }
    setoid_rewrite E. clear E.
    destruct (node_eq_dec n m) as [->|Ne]; cbn [andb];
      [|right; split; [intros out G; inversion G; subst; congruence|reflexivity]].
    destruct (Nat.eqb_spec (length (c :: cs)) (length (d :: ds))) as [El|El].
    2:{ right; split; [|reflexivity]. intros out G; inversion G as [| |? ? ? ? ? GL]; subst. apply El.
        clear - GL. induction GL; cbn; congruence. }
    cbn [bind].
    assert (X : (exists out, gives_list (c :: cs) (d :: ds) out /\
        forall q, replicate_list (map structure (c :: cs)) (map structure (d :: ds)) (leaves (Node m (c :: cs)) ++ q) = Ok (out, q)) \/
        ((forall out, ~ gives_list (c :: cs) (d :: ds) out) /\
        forall q, replicate_list (map structure (c :: cs)) (map structure (d :: ds)) (leaves (Node m (c :: cs)) ++ q) = Err RuntimeError)).
    { clear Wn Wm. cbn [leaves]. revert El IH Wcs Wds. generalize (c :: cs) as C, (d :: ds) as D. clear.
      induction C as [|c C IHC]; intros [|d D] El IH Wc Wd; try discriminate.
      - left. exists []. split; [constructor|]. reflexivity.
      - injection El as El. inversion IH as [|? ? I1 I2]; subst. inversion Wc as [|? ? W1 W2]; subst. inversion Wd as [|? ? V1 V2]; subst.
        cbn [map flat_map replicate_list].
        destruct (I1 d W1 V1) as [(o & G & Eo)|[G Eo]].
        + destruct (IHC D El I2 W2 V2) as [(os & Gs & Es)|[Gs Es]].
          * left. exists (o ++ os). split; [constructor; assumption|]. intros q. rewrite <- app_assoc.
            cbn [replicate_list]. rewrite Eo. cbn [rewrap bind].
            fold (@replicate_list L). rewrite Es. reflexivity.
          * right. split; [intros out GG; inversion GG; subst; eapply Gs; eassumption|]. intros q. rewrite <- app_assoc.
            cbn [replicate_list]. rewrite Eo. cbn [rewrap bind]. fold (@replicate_list L). rewrite Es. reflexivity.
        + right. split; [intros out GG; inversion GG; subst; eapply G; eassumption|]. intros q. rewrite <- app_assoc.
          cbn [replicate_list]. rewrite Eo. reflexivity. }
    destruct X as [(out & G & E)|[G E]].
    + left. exists out. split; [constructor; [discriminate|exact G]|exact E].
    + right. split; [|exact E]. intros out GG. inversion GG; subst. eapply G; eassumption.
Qed.

Lemma gives_length {L M} (S : tree L) (T : tree M) out : gives S T out -> length out <= length (leaves T).
Proof.
  revert S T out. apply (gives_mind L M (fun S T out _ => length out <= length (leaves T))
    (fun cs ds out _ => length out <= length (flat_map leaves ds))); cbn; intros; rewrite ?repeat_length, ?app_length; lia.
Qed.
Lemma gives_list_length {L M} (cs : list (tree L)) (ds : list (tree M)) out :
  gives_list cs ds out -> length out <= length (flat_map leaves ds).
Proof.
  induction 1 as [|c d o cs ds os G _ IH]; cbn; [lia|]. rewrite !app_length. apply gives_length in G. lia.
Qed.
Lemma gives_fun {L M} (S : tree L) (T : tree M) o1 : gives S T o1 -> forall o2, gives S T o2 -> o1 = o2.
Proof.
  revert S T o1. apply (gives_mind L M (fun S T o1 _ => forall o2, gives S T o2 -> o1 = o2)
    (fun cs ds o1 _ => forall o2, gives_list cs ds o2 -> o1 = o2)).
  - intros x t o2 G. inversion G; reflexivity.
  - intros n t o2 G. inversion G; subst; [reflexivity|congruence].
  - intros n cs ds out Hne _ IH o2 G. inversion G; subst; [congruence|auto].
  - intros o2 G. now inversion G.
  - intros c d o cs ds os _ IH1 _ IH2 o2 G. inversion G; subst. f_equal; auto.
Qed.

Lemma spreads_gives {L M} (S : tree L) (T : tree M) O :
  spreads S T O -> gives S T (leaves O) /\ structure O = structure T.
Proof.
  revert S T O. apply (spreads_mind L M (fun S T O _ => gives S T (leaves O) /\ structure O = structure T)
    (fun cs ds os _ => gives_list cs ds (flat_map leaves os) /\ map structure os = map structure ds)).
  - intros x t. rewrite leaves_tmap. split; [|now rewrite structure_tmap].
    replace (map (fun _ => x) (leaves t)) with (repeat x (length (leaves t))); [constructor|].
    clear. induction (leaves t); cbn; congruence.
  - intros n t o E Es. split; [|exact Es]. apply structure_eq_length in Es. rewrite E in Es.
    destruct (leaves o); [constructor|discriminate].
  - intros n cs ds os _ [G E]. rewrite !structure_Node, E. split; [|reflexivity]. cbn [leaves].
    destruct cs; [inversion G; constructor|]. constructor; [discriminate|exact G].
  - split; constructor.
  - intros c d o cs ds os _ [G1 E1] _ [G2 E2]. cbn. split; [now constructor|congruence].
Qed.
Lemma gives_spreads {L M} (S : tree L) (T : tree M) out :
  gives S T out -> length out = length (leaves T) -> exists O, spreads S T O /\ leaves O = out.
Proof.
  revert S T out. apply (gives_mind L M (fun S T out _ => length out = length (leaves T) -> exists O, spreads S T O /\ leaves O = out)
    (fun cs ds out _ => length out = length (flat_map leaves ds) -> exists os, spreads_list cs ds os /\ flat_map leaves os = out)).
  - intros x t _. eexists. split; [constructor|]. rewrite leaves_tmap. clear. induction (leaves t); cbn; congruence.
  - intros n t Hl. destruct (unflatten_ok (structure t) (@nil L)) as (O & _ & E1 & E2); [now rewrite length_leaves_structure|].
    exists O. split; [|exact E1]. constructor; [now destruct (leaves t)|exact E2].
  - intros n cs ds out _ _ IH Hl. destruct (IH Hl) as (os & Sp & E). exists (Node n os). split; [now constructor|exact E].
  - intros _. exists []. split; [constructor|reflexivity].
  - intros c d o cs ds os G1 IH1 G2 IH2 Hl. cbn in Hl. rewrite !app_length in Hl.
    pose proof (gives_length _ _ _ G1). pose proof (gives_list_length _ _ _ G2).
    destruct IH1 as (O & S1 & E1); [lia|]. destruct IH2 as (Os & S2 & E2); [lia|].
    exists (O :: Os). split; [now constructor|]. cbn. congruence.
Qed.

Theorem broadcast_pytree_ok {L M} (S : tree L) (T : tree M) O :
  tree_wf S = true -> tree_wf T = true ->
  broadcast_pytree_shape S T = Ok O <-> spreads S T O.
Proof.
  intros WS WT. unfold broadcast_pytree_shape.
  destruct (replicate_char S T WS WT) as [(out & G & E)|[G E]]; specialize (E []); rewrite app_nil_r in E; rewrite E; cbn [bind].
  - split.
    + intros H. destruct (Nat.eqb_spec (length out) (length (leaves T))) as [El|El]; cbn [guard bind] in H; [|discriminate].
      destruct (gives_spreads S T out G El) as (O' & Sp & EO). cbn in H.
      apply unflatten_inv in H as [H1 H2]. destruct (spreads_gives _ _ _ Sp) as [_ H3].
      replace O with O'; [exact Sp|]. apply tree_ext; congruence.
    + intros Sp. destruct (spreads_gives _ _ _ Sp) as [G' Es]. pose proof (gives_fun _ _ _ G _ G') as ->.
      rewrite (structure_eq_length _ _ Es), Nat.eqb_refl. cbn. rewrite <- Es. apply unflatten_leaves.
  - split; [discriminate|]. intros Sp. destruct (spreads_gives _ _ _ Sp) as [G' _]. exfalso. eapply G; exact G'.
Qed.
Theorem broadcast_pytree_err {L M} (S : tree L) (T : tree M) e :
  tree_wf S = true -> tree_wf T = true ->
  broadcast_pytree_shape S T = Err e ->
  (e = RuntimeError /\ forall out, ~ gives S T out) \/
  (e = AssertionError /\ exists out, gives S T out /\ length out < length (leaves T)).
Proof.
  intros WS WT. unfold broadcast_pytree_shape.
  destruct (replicate_char S T WS WT) as [(out & G & E)|[G E]]; specialize (E []); rewrite app_nil_r in E; rewrite E; cbn [bind].
  - destruct (Nat.eqb_spec (length out) (length (leaves T))) as [El|El]; cbn [guard bind].
    + intros H. cbn in H. apply unflatten_err_length in H. rewrite length_leaves_structure in H. congruence.
    + intros [= <-]. right. split; [reflexivity|]. exists out. split; [exact G|]. pose proof (gives_length _ _ _ G). lia.
  - intros [= <-]. left. split; [reflexivity|exact G].
Qed.
Lemma spreads_structure {L M} (S : tree L) (T : tree M) O : spreads S T O -> structure O = structure T.
Proof. intros H. now apply spreads_gives in H. Qed.
Lemma spreads_fun {L M} (S : tree L) (T : tree M) O1 O2 : spreads S T O1 -> spreads S T O2 -> O1 = O2.
Proof.
  intros H1 H2. apply spreads_gives in H1 as [G1 E1], H2 as [G2 E2]. apply tree_ext; [congruence|].
  eapply gives_fun; eassumption.
Qed.
Lemma spreads_refl {L} (S : tree L) : spreads S S S.
Proof.
  induction S as [x|n cs IH] using tree_ind'; [exact (spreads_leaf x (Leaf x))|]. constructor.
  induction IH; constructor; assumption.
Qed.

Lemma gives_dec {L M} (S : tree L) : forall (T : tree M), (exists out, gives S T out) \/ (forall out, ~ gives S T out).
Proof.
  induction S as [x|n cs IH] using tree_ind'; intros T; [left; eexists; constructor|].
  destruct cs as [|c cs]; [left; eexists; constructor|].
  destruct T as [y|m ds]; [right; intros out G; inversion G|].
  destruct (node_eq_dec n m) as [->|Ne]; [|right; intros out G; inversion G; congruence].
  assert (X : (exists out, gives_list (c :: cs) ds out) \/ (forall out, ~ gives_list (c :: cs) ds out)).
  { revert IH. generalize (c :: cs) as C. revert ds. clear. intros ds C IH. revert ds.
    induction IH as [|c C Hc _ IHC]; intros [|d ds].
    - left. eexists. constructor.
    - right. intros out G. inversion G.
    - right. intros out G. inversion G.
    - destruct (Hc d) as [[o G]|G]; [|right; intros out GG; inversion GG; subst; eapply G; eassumption].
      destruct (IHC ds) as [[os Gs]|Gs]; [left; eexists; constructor; eassumption|].
      right; intros out GG; inversion GG; subst; eapply Gs; eassumption. }
  destruct X as [[out G]|G]; [left; exists out; constructor; [discriminate|exact G]|].
  right. intros out GG. inversion GG; subst. eapply G; eassumption.
Qed.
Lemma clash_iff {L M} (S : tree L) : forall (T : tree M), clash S T <-> forall out, ~ gives S T out.
Proof.
  induction S as [x|n cs IH] using tree_ind'; intros T.
  - split; [inversion 1|]. intros H. exfalso. eapply H. constructor.
  - destruct cs as [|c cs].
    { split; [inversion 1; subst; contradiction|]. intros H. exfalso. eapply H. constructor. }
    destruct T as [y|m ds].
    { split; [intros _ out G; inversion G|]. intros _. constructor. }
    destruct (node_eq_dec n m) as [->|Ne].
    2:{ split; [intros _ out G; inversion G; congruence|]. intros _. constructor. auto. }
    destruct (Nat.eq_dec (length (c :: cs)) (length ds)) as [El|El].
    2:{ split; [|intros _; constructor; auto]. intros _ out G. inversion G as [| |? ? ? ? ? GL]; subst. apply El.
        clear - GL. induction GL; cbn; congruence. }
    assert (X : (exists out, gives_list (c :: cs) ds out) \/ (exists i x y, nth_error (c :: cs) i = Some x /\ nth_error ds i = Some y /\ clash x y)).
    { revert El IH. generalize (c :: cs) as C. revert ds. clear. induction ds as [|d D IHD]; intros [|c C] El IH; try discriminate.
      - left. eexists. constructor.
      - injection El as El. inversion IH as [|? ? I1 I2]; subst.
        destruct (IHD C El I2) as [[os Gs]|(i & x & y & H1 & H2 & H3)].
        + destruct (gives_dec c d) as [[o G]|G].
          * left. eexists. constructor; eassumption.
          * right. exists 0, c, d. split; [reflexivity|]. split; [reflexivity|]. now apply I1.
        + right. exists (S i), x, y. auto. }
    assert (Y : forall i x y, nth_error (c :: cs) i = Some x -> nth_error ds i = Some y -> clash x y -> forall out, ~ gives_list (c :: cs) ds out).
    { clear X El. revert IH. generalize (c :: cs) as C. clear. intros C IH i x y H1 H2 Cl out G. revert i H1 H2 IH.
      induction G as [|c d o C D os G1 _ IHG]; intros [|i] H1 H2 IH; try discriminate; inversion IH as [|? ? I1 I2]; subst.
      - cbn in H1, H2. injection H1 as <-. injection H2 as <-. exact (proj1 (I1 _) Cl _ G1).
      - eapply IHG; eassumption. }
    split.
    + intros H out G. inversion G as [| |? ? ? ? ? GL]; subst. inversion H; subst.
      * match goal with H : _ \/ _ |- _ => destruct H; congruence end.
      * eapply Y; eassumption.
    + intros H. destruct X as [[out G]|(i & x & y & H1 & H2 & H3)].
      * exfalso. eapply H. constructor; [discriminate|exact G].
      * econstructor; eassumption.
Qed.

(** ** execute_binary_operator *)
Lemma slb_aligned {N} (a : array N) (target : list nat) :
  length (a_shape a) <= length target ->
  exists t, setup_left_broadcast (a_ten a) target = Ok t /\ mkA (a_dt a) t = aligned a (length target).
Proof.
  intros H. rewrite slb_char. unfold a_shape in H. rewrite (proj2 (Nat.leb_le _ _) H).
  unfold aligned, left_aligned, a_shape, a_data. destruct (a_ten a) as [[|x sh] d]; eexists; split; reflexivity.
Qed.
Lemma aligned_same {N} (a : array N) n : length (a_shape a) = n -> aligned a n = a.
Proof.
  intros H. unfold aligned, left_aligned, a_shape, a_data in *. destruct a as [dt [sh d]]. cbn in *. subst n.
  destruct sh; [reflexivity|]. cbn. now rewrite Nat.sub_diag, app_nil_r.
Qed.
Theorem apply_left_char {N} (op : array N -> array N -> res (array N)) (la lb : array N) :
  let n := Nat.max (length (a_shape la)) (length (a_shape lb)) in
  apply_left_broadcast op la lb = rewrap RuntimeError (op (aligned la n) (aligned lb n)).
Proof.
  cbn zeta. unfold apply_left_broadcast, ndim. fold (a_shape la) (a_shape lb).
  destruct (Nat.ltb_spec (length (a_shape lb)) (length (a_shape la))) as [H|H].
  - destruct (slb_aligned lb (a_shape la)) as (t & -> & Et); [lia|]. cbn [bind].
    rewrite Nat.max_l by lia. rewrite (aligned_same la) by reflexivity. now rewrite Et.
  - destruct (Nat.ltb_spec (length (a_shape la)) (length (a_shape lb))) as [H'|H'].
    + destruct (slb_aligned la (a_shape lb)) as (t & -> & Et); [lia|]. cbn [bind].
      rewrite Nat.max_r by lia. rewrite (aligned_same lb) by reflexivity. now rewrite Et.
    + rewrite !aligned_same by lia. reflexivity.
Qed.

Lemma mapM2_err {A B C} (f : A -> B -> res C) l1 l2 e :
  mapM2 f l1 l2 = Err e -> exists i x y, nth_error l1 i = Some x /\ nth_error l2 i = Some y /\ f x y = Err e.
Proof.
  revert l2. induction l1 as [|x l1 IH]; intros [|y l2] H; cbn in H; try discriminate.
  destruct (f x y) as [z|e'] eqn:E; cbn in H.
  - destruct (mapM2 f l1 l2) as [zs|e''] eqn:E2; [discriminate|]. cbn in H. injection H as ->.
    destruct (IH l2 E2) as (i & a & b & H1 & H2 & H3). exists (S i), a, b. auto.
  - injection H as ->. exists 0, x, y. auto.
Qed.

Lemma binary_core {N} (op : array N -> array N -> res (array N)) (a b out : tree (array N)) :
  tree_wf a = true -> tree_wf b = true ->
  execute_binary_operator op a b = Ok out <->
  exists a' b', paired a b a' b' /\ structure a' = structure b' /\ structure out = structure a' /\
    forall i x y, nth_error (leaves a') i = Some x -> nth_error (leaves b') i = Some y ->
      let n := Nat.max (length (a_shape x)) (length (a_shape y)) in
      exists z, op (aligned x n) (aligned y n) = Ok z /\ nth_error (leaves out) i = Some z.
Proof.
  intros Wa Wb. unfold execute_binary_operator.
  assert (Leaf : forall a' b' : tree (array N), structure a' = structure b' ->
    ((output <- mapM2 (apply_left_broadcast op) (leaves a') (leaves b') ;; unflatten (structure a') output) = Ok out <->
    structure out = structure a' /\
    forall i x y, nth_error (leaves a') i = Some x -> nth_error (leaves b') i = Some y ->
      let n := Nat.max (length (a_shape x)) (length (a_shape y)) in
      exists z, op (aligned x n) (aligned y n) = Ok z /\ nth_error (leaves out) i = Some z)).
  { intros a' b' Es. pose proof (structure_eq_length _ _ Es) as El. split.
    - intros H. inv_bind H. rename a0 into ls. apply unflatten_inv in H as [H1 H2]. split; [exact H1|].
      intros i x y Hx Hy. destruct (mapM2_some _ _ _ _ _ _ _ E Hx Hy) as (z & Hz & Hn).
      rewrite apply_left_char in Hz. apply rewrap_ok in Hz. exists z. split; [exact Hz|congruence].
    - intros [H1 H2]. assert (E : mapM2 (apply_left_broadcast op) (leaves a') (leaves b') = Ok (leaves out)).
      { apply mapM2_ok_iff; [exact El|]. split; [now apply structure_eq_length|].
        intros i x y Hx Hy. destruct (H2 i x y Hx Hy) as (z & Hz & Hn). exists z. split; [|exact Hn].
        rewrite apply_left_char. now apply rewrap_ok. }
      rewrite E. cbn [bind]. rewrite <- H1. apply unflatten_leaves. }
  unfold paired. split.
  - intros H. inv_bind H. rename a0 into ab. destruct ab as [a' b']. apply rewrap_ok in E.
    destruct (broadcast_pytree_shape a b) as [a0|e] eqn:Ea.
    + injection E as <- <-. apply broadcast_pytree_ok in Ea; auto. exists a0, b. split; [auto|].
      pose proof (spreads_structure _ _ _ Ea) as Es. split; [exact Es|]. now apply Leaf.
    + destruct (broadcast_pytree_err a b e Wa Wb Ea) as [[-> G]|[-> _]]; [|discriminate]. apply clash_iff in G.
      inv_bind E. injection E as <- <-. rename a0 into b0. apply broadcast_pytree_ok in E0; auto. exists a, b0. split; [auto|].
      pose proof (spreads_structure _ _ _ E0) as Es. split; [now symmetry|]. apply Leaf; [now symmetry|exact H].
  - intros (a' & b' & P & Es & Eo & Hl). assert (Hop := proj2 (Leaf a' b' Es) (conj Eo Hl)).
    destruct P as [[Sp ->]|(G & Sp & ->)].
    + apply broadcast_pytree_ok in Sp; auto. rewrite Sp. cbn [rewrap bind]. exact Hop.
    + rewrite clash_iff in G. destruct (broadcast_pytree_shape a b) as [a0|e] eqn:Ea.
      { apply broadcast_pytree_ok in Ea; auto. apply spreads_gives in Ea as [Ga _]. exfalso. eapply G; exact Ga. }
      destruct (broadcast_pytree_err a b e Wa Wb Ea) as [[-> _]|[-> (o & Go & _)]]; [|exfalso; eapply G; exact Go].
      apply broadcast_pytree_ok in Sp; auto. rewrite Sp. cbn [rewrap bind]. exact Hop.
Qed.
Lemma binary_err {N} (op : array N -> array N -> res (array N)) (a b : tree (array N)) e :
  tree_wf a = true -> tree_wf b = true ->
  execute_binary_operator op a b = Err e -> e = RuntimeError.
Proof.
  intros Wa Wb H. unfold execute_binary_operator in H.
  match type of H with bind ?r _ = _ => destruct r as [[a' b']|e'] eqn:E end.
  2:{ apply rewrap_err in E. cbn in H. congruence. }
  cbn [bind] in H. apply rewrap_ok in E.
  assert (Es : structure a' = structure b').
  { destruct (broadcast_pytree_shape a b) as [a0|e0] eqn:Ea.
    - injection E as <- <-. apply broadcast_pytree_ok in Ea; auto. exact (spreads_structure _ _ _ Ea).
    - destruct (broadcast_pytree_err a b e0 Wa Wb Ea) as [[-> G]|[-> _]]; [|discriminate].
      inv_bind E. injection E as <- <-. apply broadcast_pytree_ok in E0; auto. symmetry. exact (spreads_structure _ _ _ E0). }
  destruct (mapM2 (apply_left_broadcast op) (leaves a') (leaves b')) as [ls|e'] eqn:El; cbn [bind] in H.
  - apply unflatten_err_length in H. apply mapM2_length in El. rewrite length_leaves_structure in H.
    pose proof (structure_eq_length _ _ Es). lia.
  - apply mapM2_err in El as (i & x & y & _ & _ & Hf). rewrite apply_left_char in Hf. apply rewrap_err in Hf. congruence.
Qed.

(** ** Structure comparison *)
Scheme sun_mind := Induction for same_up_to_none Sort Prop
  with sun_list_mind := Induction for sun_list Sort Prop.
Lemma none_out_sun {A B} (t1 : tree A) : forall (t2 : tree B), none_out t1 = none_out t2 <-> same_up_to_none t1 t2.
Proof.
  induction t1 as [x|n cs IH] using tree_ind'; intros [y|m ds]; cbn [none_out].
  - split; constructor.
  - split.
    + intros [= <- E]. destruct ds; [constructor|discriminate].
    + inversion 1; subst; reflexivity.
  - split.
    + intros [= -> E]. destruct cs; [constructor|discriminate].
    + inversion 1; subst; reflexivity.
  - split.
    + intros [= -> E]. constructor. revert ds E. induction IH as [|c cs Hc _ IHc]; intros [|d ds] E; try discriminate; constructor.
      * apply Hc. now injection E.
      * apply IHc. now injection E.
    + inversion 1 as [| | |n' cs' ds' SL E1 E2]; subst. f_equal. clear H.
      induction SL as [|c d cs ds Sc SL IHs]; [reflexivity|]. inversion IH as [|? ? I1 I2]; subst. cbn.
      f_equal; [now apply I1|now apply IHs].
Qed.
Lemma structure_equal_iff {A B} (t1 : tree A) (t2 : tree B) :
  are_pytree_structure_equal t1 t2 = true <-> same_up_to_none t1 t2.
Proof. unfold are_pytree_structure_equal. rewrite td_eqb_eq. apply none_out_sun. Qed.
Lemma structure_none_out {A B} (t1 : tree A) (t2 : tree B) : structure t1 = structure t2 -> none_out t1 = none_out t2.
Proof.
  revert t2. induction t1 as [x|n cs IH] using tree_ind'; intros [y|m ds] E; try discriminate; [reflexivity|].
  rewrite !structure_Node in E. injection E as -> E. cbn [none_out]. f_equal.
  revert ds E. induction IH as [|c cs Hc _ IHc]; intros [|d ds] E; try discriminate; [reflexivity|].
  injection E as E1 E2. cbn. f_equal; [now apply Hc|now apply IHc].
Qed.
Lemma no_none_structure {A B} (t1 : tree A) (t2 : tree B) :
  no_none t1 = true -> no_none t2 = true -> same_up_to_none t1 t2 -> structure t1 = structure t2.
Proof.
  intros N1 N2 H. revert N1 N2. revert t1 t2 H.
  apply (sun_mind A B (fun t1 t2 _ => no_none t1 = true -> no_none t2 = true -> structure t1 = structure t2)
    (fun cs ds _ => forallb no_none cs = true -> forallb no_none ds = true -> map structure cs = map structure ds)).
  - reflexivity.
  - discriminate.
  - discriminate.
  - intros n cs ds _ IH N1 N2. rewrite !structure_Node. f_equal. destruct n; cbn in N1, N2; [discriminate| | | |]; auto.
  - reflexivity.
  - intros c d cs ds _ I1 _ I2 N1 N2. cbn in N1, N2. apply andb_true_iff in N1 as [A1 A2], N2 as [B1 B2].
    cbn. f_equal; auto.
Qed.

(** ** are_pytrees_equal *)
Lemma forallb_map_id (l : list bool) : forallb (fun b => b) l = true <-> Forall (eq true) l.
Proof. rewrite forallb_forall, Forall_forall. split; intros H x Hx; specialize (H x Hx); congruence. Qed.
Theorem pytrees_equal_leaves {N} u (t1 t2 : tree (eleaf N)) :
  are_pytrees_equal u t1 t2 =
  if Nat.eqb (length (leaves t1)) (length (leaves t2)) then
    bs <- mapM2 (are_leaves_equal u) (leaves t1) (leaves t2) ;; Ok (forallb (fun b => b) bs)
  else Err AssertionError.
Proof.
  unfold are_pytrees_equal, merge_pytrees. destruct (Nat.eqb_spec (length (leaves t1)) (length (leaves t2))) as [E|E]; [|reflexivity].
  cbn [guard bind]. destruct (mapM2 (are_leaves_equal u) (leaves t1) (leaves t2)) as [bs|e] eqn:Em; [|reflexivity].
  cbn [bind]. destruct (unflatten_ok (structure t1) bs) as (t & -> & El & _).
  - rewrite (mapM2_length _ _ _ _ Em), length_leaves_structure. lia.
  - cbn [bind]. now rewrite El.
Qed.
