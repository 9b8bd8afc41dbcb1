(** * Proofs: nothing looks at the contents of arrays *)
From Verif Require Import Base PyTree Tensor Num Utils States Controller Builder Viewer Editor Layers History
  BaseFacts PyTreeFacts TensorFacts TraceSpec.

Notation rr := same_outcome.

Lemma rr_mono {A B} (R S : A -> B -> Prop) r r' : (forall a b, R a b -> S a b) -> rr R r r' -> rr S r r'.
Proof. intros I. destruct r, r'; cbn; auto. Qed.
Lemma rr_bind {A B C D} (R : A -> B -> Prop) (S : C -> D -> Prop) r r' f g :
  rr R r r' -> (forall a b, R a b -> rr S (f a) (g b)) -> rr S (bind r f) (bind r' g).
Proof. intros H F. destruct r, r'; cbn in *; auto; contradiction. Qed.
Lemma rr_rewrap {A B} (R : A -> B -> Prop) e r r' : rr R r r' -> rr R (rewrap e r) (rewrap e r').
Proof. destruct r, r'; cbn; auto. Qed.
Lemma rr_guard b b' e : b = b' -> rr (fun _ _ => True) (guard b e) (guard b' e).
Proof. intros ->. destruct b'; cbn; auto. Qed.
Lemma rr_mapM {A B C D} (R : A -> B -> Prop) (S : C -> D -> Prop) f g l l' :
  Forall2 R l l' -> (forall a b, R a b -> rr S (f a) (g b)) -> rr (Forall2 S) (mapM f l) (mapM g l').
Proof.
  intros H F. induction H as [|x y l l' Hx H IH]; cbn [mapM]; [constructor|].
  eapply rr_bind; [exact (F _ _ Hx)|]. intros a b Hab. eapply rr_bind; [exact IH|]. intros xs ys Hs. cbn. now constructor.
Qed.
Lemma rr_mapM2 {A B A' B' C D} (R : A -> B -> Prop) (R' : A' -> B' -> Prop) (S : C -> D -> Prop) f g l1 l1' l2 l2' :
  Forall2 R l1 l1' -> Forall2 R' l2 l2' -> (forall a b a' b', R a b -> R' a' b' -> rr S (f a a') (g b b')) ->
  rr (Forall2 S) (mapM2 f l1 l2) (mapM2 g l1' l2').
Proof.
  intros H H' F. revert l2 l2' H'. induction H as [|x y l l' Hx H IH]; intros l2 l2' H'; cbn [mapM2]; [constructor|].
  destruct H' as [|x2 y2 l2 l2' H2 H']; [constructor|]. eapply rr_bind; [exact (F _ _ _ _ Hx H2)|]. intros a b Hab.
  eapply rr_bind; [exact (IH _ _ H')|]. intros xs ys Hs. cbn. now constructor.
Qed.
Lemma F2_length {A B} (R : A -> B -> Prop) l l' : Forall2 R l l' -> length l = length l'.
Proof. induction 1; cbn; congruence. Qed.

(** ** Trees *)
Definition ltree {A B} (R : A -> B -> Prop) (t : tree A) (t' : tree B) : Prop :=
  structure t = structure t' /\ Forall2 R (leaves t) (leaves t').

Lemma rr_unflatten_aux {A B} (R : A -> B -> Prop) (td : treedef) : forall q q', Forall2 R q q' ->
  rr (fun p p' => ltree R (fst p) (fst p') /\ Forall2 R (snd p) (snd p')) (unflatten_aux td q) (unflatten_aux td q').
Proof.
  induction td as [u|n cs IH] using tree_ind'; intros q q' H.
  - cbn [unflatten_aux]. destruct H as [|x y q q' Hx H]; cbn; [reflexivity|]. repeat split; cbn; auto.
  - cbn [unflatten_aux].
    eapply (rr_bind (fun p p' => (map structure (fst p) = map structure (fst p') /\
              Forall2 R (flat_map leaves (fst p)) (flat_map leaves (fst p'))) /\ Forall2 R (snd p) (snd p'))).
    + revert q q' H. induction IH as [|c cs Hc IH IHcs]; intros q q' H; [cbn; auto|].
      eapply rr_bind; [exact (Hc _ _ H)|]. intros [t q1] [t' q1'] [[T L] Q]. cbn [fst snd] in *.
      eapply rr_bind; [exact (IHcs _ _ Q)|]. intros [ts q2] [ts' q2'] [[Ts Ls] Q2]. cbn [fst snd] in *. cbn.
      repeat split; [congruence| |assumption]. now apply Forall2_app.
    + intros [ts q2] [ts' q2'] [[Ts Ls] Q2]. cbn [fst snd] in *. cbn. repeat split; [cbn [fst]; rewrite !structure_Node; now rewrite Ts|exact Ls|exact Q2].
Qed.
Lemma rr_unflatten {A B} (R : A -> B -> Prop) (td : treedef) q q' : Forall2 R q q' ->
  rr (ltree R) (unflatten td q) (unflatten td q').
Proof.
  intros H. unfold unflatten. eapply rr_bind; [exact (rr_unflatten_aux R td _ _ H)|].
  intros [t r] [t' r'] [T Q]. cbn [fst snd] in *. destruct Q; cbn; auto.
Qed.
Lemma rr_merge {A B A' B' C D} (R : A -> B -> Prop) (R' : A' -> B' -> Prop) (S : C -> D -> Prop) f g t t' u u' :
  ltree R t t' -> ltree R' u u' -> (forall a b a' b', R a b -> R' a' b' -> rr S (f a a') (g b b')) ->
  rr (ltree S) (merge_pytrees f t u) (merge_pytrees g t' u').
Proof.
  intros [T L] [U L'] F. unfold merge_pytrees. eapply rr_bind.
  - apply rr_guard. now rewrite (F2_length _ _ _ L), (F2_length _ _ _ L').
  - intros _ _ _. eapply rr_bind; [exact (rr_mapM2 _ _ S _ _ _ _ _ _ L L' F)|]. intros xs ys H. rewrite T. now apply rr_unflatten.
Qed.
Lemma rr_tree_mapM {A B C D} (R : A -> B -> Prop) (S : C -> D -> Prop) f g t t' :
  ltree R t t' -> (forall a b, R a b -> rr S (f a) (g b)) -> rr (ltree S) (tree_mapM f t) (tree_mapM g t').
Proof.
  intros [T L] F. unfold tree_mapM. eapply rr_bind; [exact (rr_mapM _ S _ _ _ _ L F)|]. intros xs ys H. rewrite T. now apply rr_unflatten.
Qed.

(** ** Tensors: only the shape counts *)
Definition lten {A B} (t : tensor A) (t' : tensor B) : Prop := shape t = shape t'.

Lemma bcast_same_shapes {A B} src : forall dst (d : list A) (d' : list B),
  match bcast_same src dst d, bcast_same src dst d' with Some _, Some _ | None, None => True | _, _ => False end.
Proof.
  induction src as [|s src IH]; intros [|t dst] d d'; cbn [bcast_same]; auto.
  destruct (Nat.eqb s t).
  - set (go := fix go (cs : list (list A)) := match cs with [] => Some [] | _ => _ end).
    set (go' := fix go (cs : list (list B)) := match cs with [] => Some [] | _ => _ end).
    assert (G : forall cs cs', length cs = length cs' ->
      match go cs, go' cs' with Some _, Some _ | None, None => True | _, _ => False end).
    { induction cs as [|c cs IHc]; intros [|c' cs']; cbn [length]; intros E; try discriminate; [exact I|].
      unfold go, go'; fold go; fold go'. injection E as E. specialize (IHc _ E). specialize (IH dst c c').
      destruct (bcast_same src dst c), (bcast_same src dst c'); try contradiction; auto.
      destruct (go cs), (go' cs'); auto. }
    apply G. now rewrite !chunks_length.
  - destruct (Nat.eqb s 1); auto. specialize (IH dst d d').
    destruct (bcast_same src dst d), (bcast_same src dst d'); auto.
Qed.
Lemma rr_broadcast_to {A B} (t : tensor A) (t' : tensor B) sh : lten t t' ->
  rr lten (broadcast_to t sh) (broadcast_to t' sh).
Proof.
  unfold lten, broadcast_to, ndim. intros ->. destruct (Nat.leb (length (shape t')) (length sh)); [|reflexivity].
  pose proof (bcast_same_shapes (repeat 1 (length sh - length (shape t')) ++ shape t') sh (data t) (data t')) as H.
  destruct (bcast_same _ sh (data t)), (bcast_same _ sh (data t')); try contradiction; cbn; auto.
Qed.
Lemma rr_tbin {A B C A' B' C'} (f : A -> B -> C) (g : A' -> B' -> C') x x' y y' : lten x x' -> lten y y' ->
  rr lten (tbin f x y) (tbin g x' y').
Proof.
  intros X Y. unfold tbin. rewrite X, Y. destruct (broadcast_shapes (shape x') (shape y')) as [sh|]; [|reflexivity].
  eapply rr_bind; [exact (rr_broadcast_to _ _ sh X)|]. intros a b _.
  eapply rr_bind; [exact (rr_broadcast_to _ _ sh Y)|]. intros a' b' _. reflexivity.
Qed.
Lemma rr_tselect {A B} p p' (a b : tensor A) (a' b' : tensor B) : lten p p' -> lten a a' -> lten b b' ->
  rr lten (tselect p a b) (tselect p' a' b').
Proof.
  unfold lten, tselect. intros -> -> ->. destruct (shape_eqb (shape a') (shape b')); [|reflexivity].
  destruct (shape_eqb (shape p') (shape a')); [reflexivity|]. destruct (shape_eqb (shape p') []); reflexivity.
Qed.
Lemma lten_map {A B C D} (f : A -> C) (g : B -> D) t t' : lten t t' -> lten (tensor_map f t) (tensor_map g t').
Proof. auto. Qed.
Lemma rr_left_broadcast {A B} (t : tensor A) (t' : tensor B) sh : lten t t' ->
  rr lten (setup_left_broadcast t sh) (setup_left_broadcast t' sh).
Proof.
  intros H. unfold setup_left_broadcast, ndim. unfold lten in H. rewrite !H. destruct (Nat.eqb (length (shape t')) 0); [exact H|].
  eapply rr_bind; [apply rr_guard; reflexivity|]. intros _ _ _. cbn [same_outcome].
  generalize (length sh - length (shape t')) as k. clear sh. intros k. revert t t' H.
  induction k as [|k IH]; intros t t' H; cbn [unsqueeze_loop]; [exact H|]. apply IH. unfold lten in *. cbn. now rewrite H.
Qed.

(** ** Dictionaries *)
Section Dicts.
  Context {V W : Type} (R : V -> W -> Prop).
  Definition ldict (d : dict V) (d' : dict W) : Prop := Forall2 (fun x y => fst x = fst y /\ R (snd x) (snd y)) d d'.
  Lemma ldict_get k d d' : ldict d d' ->
    match dget k d, dget k d' with Some v, Some w => R v w | None, None => True | _, _ => False end.
  Proof.
    induction 1 as [|[k1 v] [k2 w] d d' [E Hv] H IH]; cbn; auto. cbn in E. subst k2. destruct (String.eqb k k1); auto.
  Qed.
  Lemma ldict_mem k d d' : ldict d d' -> dmem k d = dmem k d'.
  Proof. intros H. unfold dmem. pose proof (ldict_get k _ _ H). destruct (dget k d), (dget k d'); auto; contradiction. Qed.
  Lemma ldict_keys d d' : ldict d d' -> dkeys d = dkeys d'.
  Proof. unfold dkeys. induction 1 as [|x y d d' [E _] H IH]; cbn; congruence. Qed.
  Lemma rr_dlookup k d d' : ldict d d' -> rr R (dlookup k d) (dlookup k d').
  Proof. intros H. unfold dlookup. pose proof (ldict_get k _ _ H). destruct (dget k d), (dget k d'); cbn; auto. Qed.
  Lemma ldict_set k v w d d' : ldict d d' -> R v w -> ldict (dset k v d) (dset k w d').
  Proof.
    intros H Hv. induction H as [|[k1 v1] [k2 w1] d d' [E H1] H IH]; cbn [dset]; [constructor; [split; auto|constructor]|].
    cbn in E. subst k2. destruct (String.eqb k k1); constructor; auto.
  Qed.
  Lemma ldict_del k d d' : ldict d d' -> ldict (ddel k d) (ddel k d').
  Proof.
    induction 1 as [|[k1 v1] [k2 w1] d d' [E H1] H IH]; cbn [ddel]; [constructor|].
    cbn in E. subst k2. destruct (String.eqb k k1); [exact H|constructor; auto].
  Qed.
  Lemma rr_dpop k d d' : ldict d d' -> rr ldict (dpop k d) (dpop k d').
  Proof. intros H. unfold dpop. rewrite (ldict_mem k _ _ H). destruct (dmem k d'); [now apply ldict_del|reflexivity]. Qed.
  Lemma ldict_insert x y d d' : fst x = fst y -> R (snd x) (snd y) -> ldict d d' -> ldict (insert_item x d) (insert_item y d').
  Proof.
    intros E Hx. induction 1 as [|x1 y1 d d' [E1 H1] H IH]; cbn [insert_item]; [constructor; [auto|constructor]|].
    rewrite E, E1. destruct (String.ltb (fst y) (fst y1)).
    - constructor; [auto|]. constructor; [auto|exact H].
    - constructor; auto.
  Qed.
  Lemma ldict_sort d d' : ldict d d' -> ldict (sort_items d) (sort_items d').
  Proof. induction 1 as [|x y d d' [E Hx] H IH]; cbn; [constructor|]. now apply ldict_insert. Qed.
End Dicts.
Lemma rr_dmapM {V W V' W'} (R : V -> W -> Prop) (S : V' -> W' -> Prop) f g d d' : ldict R d d' ->
  (forall v w, R v w -> rr S (f v) (g w)) -> rr (ldict S) (dmapM f d) (dmapM g d').
Proof.
  intros H F. induction H as [|[k v] [k' w] d d' [E Hv] H IH]; cbn [dmapM]; [constructor|]. cbn in E. subst k'.
  eapply rr_bind; [exact (F _ _ Hv)|]. intros a b Hab. eapply rr_bind; [exact IH|]. intros xs ys Hs. cbn. constructor; auto.
Qed.

(** ** Arrays, states and the methods *)
Section Methods.
  Context {N M : numsys}.
  Notation la := (@like_array N M).
  Notation lt := (@like_tree N M).
  Notation ld := (@like_dict N M).
  Notation lk := (@like N M).

  Lemma la_ten a b : la a b -> lten (a_ten a) (a_ten b). Proof. intros [H _]. exact H. Qed.
  Lemma la_mk d t t' : lten t t' -> la (mkA d t) (mkA d t'). Proof. intros H. split; [exact H|reflexivity]. Qed.
  Lemma lt_none : lt tnone tnone. Proof. split; [reflexivity|constructor]. Qed.
  Lemma lt_is_none t t' : lt t t' -> is_none t = is_none t'.
  Proof. intros [H _]. destruct t as [|[] ?], t' as [|[] ?]; cbn in *; congruence. Qed.

  Lemma rr_bin f g x x' y y' : la x x' -> la y y' -> rr la (a_bin f x y) (a_bin g x' y').
  Proof.
    intros X Y. unfold a_bin. eapply rr_bind; [exact (rr_tbin f g _ _ _ _ (la_ten _ _ X) (la_ten _ _ Y))|].
    intros t t' H. destruct X as [_ ->], Y as [_ ->]. now apply la_mk.
  Qed.
  Lemma rr_select p p' x x' y y' : lten p p' -> la x x' -> la y y' -> rr la (a_select p x y) (a_select p' x' y').
  Proof.
    intros P X Y. unfold a_select. rewrite (proj2 X), (proj2 Y). destruct (dtype_eqb (a_dt x') (a_dt y')); [|reflexivity].
    eapply rr_bind; [exact (rr_tselect _ _ _ _ _ _ P (la_ten _ _ X) (la_ten _ _ Y))|]. intros t t' H. now apply la_mk.
  Qed.
  Lemma la_map (w : dtype -> dtype) (f : val N -> val N) (g : val M -> val M) a b : la a b ->
    la (mkA (w (a_dt a)) (tensor_map f (a_ten a))) (mkA (w (a_dt b)) (tensor_map g (a_ten b))).
  Proof. intros [S D]. rewrite D. now apply la_mk. Qed.
  Lemma rr_mul_bool x x' m m' : la x x' -> lten m m' -> rr la (a_mul_bool x m) (a_mul_bool x' m').
  Proof.
    intros X Y. unfold a_mul_bool. eapply rr_bind; [exact (rr_tbin _ _ _ _ _ _ (la_ten _ _ X) Y)|].
    intros t t' H. destruct X as [_ ->]. now apply la_mk.
  Qed.
  Lemma rr_bool_mul x x' m m' : la x x' -> lten m m' -> rr la (a_bool_mul m x) (a_bool_mul m' x').
  Proof.
    intros X Y. unfold a_bool_mul. eapply rr_bind; [exact (rr_tbin _ _ _ _ _ _ Y (la_ten _ _ X))|].
    intros t t' H. destruct X as [_ ->]. now apply la_mk.
  Qed.

  Lemma lk_halted s s' : lk s s' -> lten (halted_batches s) (halted_batches s').
  Proof. intros H. exact (proj1 (like_probabilities _ _ H)). Qed.
  Lemma lk_bools s s' : lk s s' -> updates_ready_to_commit s = updates_ready_to_commit s' /\ has_cached_updates s = has_cached_updates s'.
  Proof.
    intros H. unfold updates_ready_to_commit, has_cached_updates.
    induction (like_updates _ _ H) as [|[k t] [k' t'] d d' [_ T] _ IH]; cbn; [auto|]. cbn in T.
    rewrite (lt_is_none _ _ T). destruct IH as [-> ->]. auto.
  Qed.

  Definition lopt {A B} (R : A -> B -> Prop) (o : option A) (o' : option B) : Prop :=
    match o, o' with Some a, Some b => R a b | None, None => True | _, _ => False end.
  Definition largs (r : replace_args N) (r' : replace_args M) : Prop :=
    lopt (fun _ _ => True) (r_epsilon r) (r_epsilon r') /\ lopt la (r_iterations r) (r_iterations r') /\
    lopt la (r_residuals r) (r_residuals r') /\ lopt la (r_probabilities r) (r_probabilities r') /\
    lopt ld (r_accumulators r) (r_accumulators r') /\ lopt ld (r_defaults r) (r_defaults r') /\
    lopt ld (r_updates r) (r_updates r') /\ lopt (fun _ _ => True) (r_depression_constant r) (r_depression_constant r') /\
    lopt (fun _ _ => True) (r_error_mode r) (r_error_mode r').
  Lemma rr_replace s s' r r' : lk s s' -> largs r r' -> rr lk (replace s r) (replace s' r').
  Proof.
    intros [I Rs P D A U E] (R1 & R2 & R3 & R4 & R5 & R6 & R7 & R8 & R9). destruct r, r'. cbn in *. unfold replace. cbn.
    repeat match goal with H : lopt _ ?o ?o' |- _ => destruct o, o'; cbn in H; try contradiction end; cbn; auto;
    constructor; cbn; auto.
  Qed.

  Lemma rr_cache s s' name item item' : lk s s' -> lt item item' -> rr lk (cache_update s name item) (cache_update s' name item').
  Proof.
    intros H I. unfold cache_update. pose proof (ldict_get lt name _ _ (like_updates _ _ H)) as G.
    destruct (dget name (updates s)) as [t|], (dget name (updates s')) as [t'|]; try contradiction; [|reflexivity].
    rewrite (lt_is_none _ _ G). destruct (negb (is_none t')); [reflexivity|]. apply rr_replace; [exact H|].
    repeat split. cbn. apply (ldict_set lt); [exact (like_updates _ _ H)|exact I].
  Qed.

  Lemma rr_process s s' h h' : lk s s' -> la h h' ->
    rr (fun p p' => la (fst (fst p)) (fst (fst p')) /\ la (snd (fst p)) (snd (fst p')) /\ la (snd p) (snd p'))
       (process_probabilities s h) (process_probabilities s' h').
  Proof.
    intros H Hh. unfold process_probabilities.
    assert (H1 : la (a_scale (depression_constant s) h) (a_scale (depression_constant s') h')) by now apply (la_map weak_float).
    assert (RW : la (a_one_minus (probabilities s)) (a_one_minus (probabilities s')))
      by apply (la_map weak_int), (like_probabilities _ _ H).
    eapply rr_bind; [exact (rr_bin _ _ _ _ _ _ H1 (like_probabilities _ _ H))|]. intros sum sum' Hs.
    eapply rr_bind; [exact (rr_tbin andb andb _ _ _ _ (proj1 Hs : lten (gt_scl sum _) (gt_scl sum' _)) (lk_halted _ _ H : lten (tnot _) (tnot _)))|]. intros nh nh' Hn.
    eapply rr_bind; [exact (rr_select _ _ _ _ _ _ Hn RW (like_residuals _ _ H))|]. intros r r' Hr.
    eapply rr_bind; [exact (rr_select _ _ _ _ _ _ (proj1 Hs : lten (gt_scl sum _) (gt_scl sum' _)) RW H1)|]. intros h2 h2' Hh2.
    eapply rr_bind; [exact (rr_bin _ _ _ _ _ _ (like_probabilities _ _ H) Hh2)|]. intros p p' Hp. cbn. auto.
  Qed.
  Lemma rr_update_acc s s' h h' a a' u u' : lk s s' -> la h h' -> la a a' -> la u u' ->
    rr la (update_accumulator s h a u) (update_accumulator s' h' a' u').
  Proof.
    intros H Hh A U. unfold update_accumulator. destruct A as [As Ad] eqn:EA, U as [Us Ud] eqn:EU.
    eapply rr_bind; [apply rr_guard; now rewrite As, Us|]. intros _ _ _. rewrite As.
    eapply rr_bind; [exact (rr_left_broadcast _ _ _ (la_ten _ _ Hh))|]. intros x x' Hx.
    eapply rr_bind; [exact (rr_left_broadcast _ _ _ (lk_halted _ _ H))|]. intros b b' Hb.
    eapply rr_bind; [exact (rr_broadcast_to _ _ _ Hb)|]. intros c c' Hc. rewrite (proj2 Hh).
    eapply rr_bind; [exact (rr_bin _ _ _ _ _ _ (la_mk (a_dt h') _ _ Hx) U)|]. intros w w' Hw.
    eapply rr_bind; [exact (rr_bin _ _ _ _ _ _ A Hw)|]. intros n n' Hn.
    exact (rr_select _ _ _ _ _ _ Hc A Hn).
  Qed.
  Lemma rr_iterate_loop s s' h h' names : lk s s' -> la h h' -> forall accs accs' upds upds', ld accs accs' -> ld upds upds' ->
    rr (fun p p' => ld (fst p) (fst p') /\ ld (snd p) (snd p')) (iterate_loop s h names accs upds) (iterate_loop s' h' names accs' upds').
  Proof.
    intros H Hh. induction names as [|name names IH]; intros accs accs' upds upds' A U; cbn [iterate_loop]; [cbn; auto|].
    eapply rr_bind; [apply rr_rewrap|].
    - eapply rr_bind; [exact (rr_dlookup lt name _ _ A)|]. intros acc acc' Ha.
      eapply rr_bind; [exact (rr_dlookup lt name _ _ U)|]. intros upd upd' Hu.
      eapply rr_bind; [apply rr_guard; now rewrite (lt_is_none _ _ Hu)|]. intros _ _ _.
      eapply rr_bind; [exact (rr_merge la la la _ _ _ _ _ _ Ha Hu (fun a b a' b' X Y => rr_update_acc s s' h h' a b a' b' H Hh X Y))|].
      intros n n' Hn. instantiate (1 := fun p p' => ld (fst p) (fst p') /\ ld (snd p) (snd p')). cbn.
      split; [now apply (ldict_set lt)|apply (ldict_set lt); [assumption|exact lt_none]].
    - intros [a u] [a' u'] [X Y]. now apply IH.
  Qed.
  Lemma rr_iterate s s' h h' : lk s s' -> la h h' -> rr lk (iterate_act s h) (iterate_act s' h').
  Proof.
    intros H Hh. unfold iterate_act.
    eapply rr_bind; [apply rr_guard; now rewrite (proj1 Hh), (proj1 (like_probabilities _ _ H))|]. intros _ _ _.
    assert (H0 : la (a_clip01 h) (a_clip01 h')) by now apply (la_map weak_float).
    eapply rr_bind; [exact (rr_process _ _ _ _ H H0)|]. intros [[x r] p] [[x' r'] p'] (X & R & P). cbn [fst snd] in *.
    rewrite (ldict_keys lt _ _ (like_accumulators _ _ H)).
    eapply rr_bind; [exact (rr_iterate_loop _ _ _ _ _ H X _ _ _ _ (like_accumulators _ _ H) (like_updates _ _ H))|].
    intros [accs upds] [accs' upds'] [A U]. cbn [fst snd] in *.
    eapply rr_bind.
    { apply rr_select; [exact (lk_halted _ _ H)|exact (like_iterations _ _ H)|apply (la_map weak_int), (like_iterations _ _ H)]. }
    intros i i' I. apply rr_replace; [exact H|]. repeat split; cbn; auto; try apply I; try apply R; try apply P.
  Qed.

  Lemma rr_reset_leaf m m' w w' a a' d d' : lten m m' -> lt w w' -> la a a' -> la d d' ->
    rr la (reset_leaf m w a d) (reset_leaf m' w' a' d').
  Proof.
    intros Hm W A D. unfold reset_leaf. eapply (rr_bind lten).
    - unfold setup_left_broadcast_obj, ndim. unfold lten in Hm. rewrite Hm. destruct (Nat.eqb (length (shape m')) 0); [exact Hm|].
      destruct W as [T L]. destruct w as [x|], w' as [x'|]; cbn in T; try discriminate; [|reflexivity].
      inversion L as [|? ? ? ? X _]; subst. rewrite (proj1 X). now apply rr_left_broadcast.
    - intros x x' X. rewrite (proj1 A). eapply rr_bind; [exact (rr_broadcast_to _ _ _ X)|]. intros y y' Y. now apply rr_select.
  Qed.
  Lemma rr_reset_loop s s' m m' names : lk s s' -> lten m m' -> forall out out', ld out out' ->
    rr ld (reset_loop s m names out) (reset_loop s' m' names out').
  Proof.
    intros H Hm. induction names as [|name names IH]; intros out out' O; cbn [reset_loop]; [exact O|].
    eapply rr_bind; [exact (rr_dlookup lt name _ _ (like_accumulators _ _ H))|]. intros acc acc' Ha.
    eapply rr_bind; [exact (rr_dlookup lt name _ _ (like_defaults _ _ H))|]. intros def def' Hd.
    eapply rr_bind; [exact (rr_merge la la la _ _ _ _ _ _ Ha Hd (fun a b a' b' X Y => rr_reset_leaf m m' acc acc' a b a' b' Hm Ha X Y))|].
    intros n n' Hn. apply IH. now apply (ldict_set lt).
  Qed.
  Lemma rr_reset s s' : lk s s' -> rr lk (reset_batches s) (reset_batches s').
  Proof.
    intros H. unfold reset_batches. eapply rr_bind; [apply rr_guard; now rewrite (proj2 (lk_bools _ _ H))|]. intros _ _ _.
    assert (U : lten (tnot (halted_batches s)) (tnot (halted_batches s'))) by exact (lk_halted _ _ H).
    eapply rr_bind; [exact (rr_mul_bool _ _ _ _ (like_iterations _ _ H) U)|]. intros i i' I.
    eapply rr_bind; [exact (rr_mul_bool _ _ _ _ (like_probabilities _ _ H) U)|]. intros p p' P.
    eapply rr_bind; [exact (rr_mul_bool _ _ _ _ (like_residuals _ _ H) U)|]. intros r r' R.
    rewrite (ldict_keys lt _ _ (like_accumulators _ _ H)).
    eapply rr_bind; [exact (rr_reset_loop _ _ _ _ _ H U [] [] (Forall2_nil _))|]. intros a a' A.
    apply rr_replace; [exact H|]. repeat split; cbn; auto; try apply I; try apply R; try apply P.
  Qed.

  Lemma rr_call s s' c c' : lk s s' -> like_call c c' -> rr lk (apply_call s c) (apply_call s' c').
  Proof.
    intros H C. destruct c, c'; cbn in C; try contradiction; cbn [apply_call].
    - destruct C as [-> C]. now apply rr_cache.
    - now apply rr_iterate.
    - now apply rr_reset.
  Qed.

  (** viewer, builder, silent editor *)
  Lemma rr_transform s s' f g : lk s s' -> (forall a b, la a b -> rr la (f a) (g b)) -> rr lk (transform s f) (transform s' g).
  Proof.
    intros H F. unfold transform.
    eapply (rr_bind (fun p p' => let '(i, r, pr, a, d, u) := p in let '(i', r', pr', a', d', u') := p' in
       la i i' /\ la r r' /\ la pr pr' /\ ld a a' /\ ld d d' /\ ld u u')).
    - apply rr_rewrap. eapply rr_bind; [exact (F _ _ (like_iterations _ _ H))|]. intros i i' I.
      eapply rr_bind; [exact (F _ _ (like_residuals _ _ H))|]. intros r r' R.
      eapply rr_bind; [exact (F _ _ (like_probabilities _ _ H))|]. intros p p' P.
      assert (FT : forall t t', lt t t' -> rr lt (tree_mapM f t) (tree_mapM g t')) by (intros t t' T; exact (rr_tree_mapM la la _ _ _ _ T F)).
      eapply rr_bind; [exact (rr_dmapM lt lt _ _ _ _ (like_accumulators _ _ H) FT)|]. intros a a' A.
      eapply rr_bind; [exact (rr_dmapM lt lt _ _ _ _ (like_defaults _ _ H) FT)|]. intros d d' D.
      eapply rr_bind; [exact (rr_dmapM lt lt _ _ _ _ (like_defaults _ _ H) FT)|]. intros u u' U. cbn. auto 10.
    - intros [[[[[i r] p] a] d] u] [[[[[i' r'] p'] a'] d'] u'] (I & R & P & A & D & U).
      apply rr_replace; [exact H|]. repeat split; cbn; auto; try apply I; try apply R; try apply P.
  Qed.
  Lemma rr_mask_data s s' dt m m' : lk s s' -> lten m m' -> rr lk (mask_data s dt m) (mask_data s' dt m').
  Proof.
    intros H E. unfold mask_data. eapply rr_bind; [apply rr_guard; reflexivity|]. intros _ _ _.
    eapply rr_bind; [apply rr_guard; unfold lten in E; now rewrite E, (proj1 (like_probabilities _ _ H))|]. intros _ _ _.
    apply rr_transform; [exact H|]. intros a b A. unfold mask_leaf. rewrite (proj1 A).
    eapply rr_bind; [exact (rr_left_broadcast _ _ _ E)|]. intros x x' X. now apply rr_bool_mul.
  Qed.
  Lemma rr_halted_views s s' : lk s s' -> rr lk (unhalted_only s) (unhalted_only s') /\ rr lk (halted_only s) (halted_only s').
  Proof. intros H. split; apply rr_mask_data; auto; exact (lk_halted _ _ H). Qed.

  Lemma rr_define s s' name t t' : lk s s' -> lt t t' -> rr lk (define s name t) (define s' name t').
  Proof.
    intros H T. unfold define, validate_definition. eapply (rr_bind (fun _ _ => True)).
    - eapply rr_bind; [eapply (rr_mapM la (fun _ _ => True) _ _ _ _ (proj2 T))|intros _ _ _; exact I].
      intros a b A. unfold validate_leaf. rewrite (proj2 A), (proj1 A), (proj1 (like_probabilities _ _ H)).
      eapply rr_bind; [apply rr_guard; reflexivity|]. intros _ _ _.
      eapply rr_bind; [apply rr_guard; reflexivity|]. intros _ _ _. apply rr_guard. reflexivity.
    - intros _ _ _. apply rr_replace; [exact H|]. repeat split; cbn.
      + apply (ldict_set lt); [apply H|exact T].
      + apply (ldict_set lt); [apply H|exact T].
      + apply (ldict_set lt); [apply H|exact lt_none].
  Qed.
  Lemma rr_delete s s' name : lk s s' -> rr lk (delete_definition s name) (delete_definition s' name).
  Proof.
    intros H. unfold delete_definition.
    eapply rr_bind; [exact (rr_dpop lt name _ _ (like_defaults _ _ H))|]. intros d d' D.
    eapply rr_bind; [exact (rr_dpop lt name _ _ (like_accumulators _ _ H))|]. intros a a' A.
    eapply rr_bind; [exact (rr_dpop lt name _ _ (like_updates _ _ H))|]. intros u u' U.
    apply rr_replace; [exact H|]. repeat split; cbn; auto.
  Qed.
  Lemma rr_by_shape s s' name shapes d fill fill' : lk s s' ->
    rr lk (define_by_shape s name shapes d fill) (define_by_shape s' name shapes d fill').
  Proof.
    intros H. unfold define_by_shape.
    eapply (rr_bind (Forall2 la)).
    - eapply (rr_mapM eq la); [induction (leaves (collapse shapes)); constructor; auto|].
      intros x y ->. unfold make_leaf. destruct y as [zs|]; [|reflexivity]. destruct (to_shape zs) as [sh|e]; cbn; [|reflexivity].
      now apply la_mk.
    - intros xs ys F. eapply rr_bind; [exact (rr_unflatten la _ _ _ F)|]. intros t t' T. now apply rr_define.
  Qed.

  Definition quiet (e : editor N) : Prop := ed_mode e <> m_standard.
  Lemma rr_quiet (e : editor N) (e' : editor M) c c' : like_editor e e' -> quiet e ->
    rr (fun _ _ => True) (execute_checks e c) (execute_checks e' c').
  Proof.
    intros [_ E] Q. unfold execute_checks. rewrite <- E. unfold quiet in Q. apply String.eqb_neq in Q. rewrite Q. exact I.
  Qed.
  Lemma rr_edit (e : editor N) (e' : editor M) c c' r r' : like_editor e e' -> quiet e -> largs r r' ->
    rr like_editor (_ <- execute_checks e c ;; s <- replace (ed_state e) r ;; Ok (mkEd s (ed_mode e)))
      (_ <- execute_checks e' c' ;; s <- replace (ed_state e') r' ;; Ok (mkEd s (ed_mode e'))).
  Proof.
    intros E Q R. eapply rr_bind; [exact (rr_quiet _ _ _ _ E Q)|]. intros _ _ _.
    eapply rr_bind; [exact (rr_replace _ _ _ _ (proj1 E) R)|]. intros s s' H. split; [exact H|exact (proj2 E)].
  Qed.
End Methods.
