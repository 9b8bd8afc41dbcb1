(** * Proofs: a relation between numbers that the operations respect is respected by every method *)
From Verif Require Import Base PyTree Tensor Num Utils States Controller Builder Viewer Layers History
  BaseFacts PyTreeFacts TensorFacts StateSpec StateFacts LayerFacts TraceSpec TraceFacts TraceFacts2.

(** ** Tensors *)
Definition rten {A B} (R : A -> B -> Prop) (t : tensor A) (t' : tensor B) : Prop :=
  shape t = shape t' /\ Forall2 R (data t) (data t').

Lemma F2_firstn {A B} (R : A -> B -> Prop) n l l' : Forall2 R l l' -> Forall2 R (firstn n l) (firstn n l').
Proof. intros H. revert n. induction H; intros [|n]; cbn; auto. Qed.
Lemma F2_skipn {A B} (R : A -> B -> Prop) n l l' : Forall2 R l l' -> Forall2 R (skipn n l) (skipn n l').
Proof. intros H. revert n. induction H; intros [|n]; cbn; auto. Qed.
Lemma F2_repeat {A B} (R : A -> B -> Prop) x y n : R x y -> Forall2 R (repeat x n) (repeat y n).
Proof. intros H. induction n; cbn; auto. Qed.
Lemma F2_map {A B C D} (R : A -> B -> Prop) (S : C -> D -> Prop) f g l l' : (forall a b, R a b -> S (f a) (g b)) ->
  Forall2 R l l' -> Forall2 S (map f l) (map g l').
Proof. intros F H. induction H; cbn; auto. Qed.
Lemma F2_map2 {A B C D E F} (R : A -> B -> Prop) (S : C -> D -> Prop) (T : E -> F -> Prop) f g l l' m m' :
  (forall a b c d, R a b -> S c d -> T (f a c) (g b d)) -> Forall2 R l l' -> Forall2 S m m' -> Forall2 T (map2 f l m) (map2 g l' m').
Proof.
  intros H L. revert m m'. induction L; intros m m' K; cbn; [constructor|]. destruct K; constructor; auto.
Qed.
Lemma F2_chunks {A B} (R : A -> B -> Prop) k n : forall d d', Forall2 R d d' -> Forall2 (Forall2 R) (chunks k n d) (chunks k n d').
Proof. induction n as [|n IH]; intros d d' H; cbn; constructor; auto using F2_firstn, F2_skipn. Qed.

Lemma bcast_same_rel {A B} (R : A -> B -> Prop) src : forall dst d d', Forall2 R d d' ->
  lopt (Forall2 R) (bcast_same src dst d) (bcast_same src dst d').
Proof.
  induction src as [|s src IH]; intros [|t dst] d d' H; cbn [bcast_same]; cbn; auto.
  destruct (Nat.eqb s t).
  - set (go := fix go (cs : list (list A)) := match cs with [] => Some [] | _ => _ end).
    set (go' := fix go (cs : list (list B)) := match cs with [] => Some [] | _ => _ end).
    assert (G : forall cs cs', Forall2 (Forall2 R) cs cs' -> lopt (Forall2 R) (go cs) (go' cs')).
    { induction 1 as [|c c' cs cs' Hc Hs IHc]; [constructor|].
      unfold go, go'; fold go; fold go'. specialize (IH dst _ _ Hc).
      destruct (bcast_same src dst c), (bcast_same src dst c'); try contradiction; auto.
      destruct (go cs), (go' cs'); try contradiction; auto. cbn in *. now apply Forall2_app. }
    apply G. now apply F2_chunks.
  - destruct (Nat.eqb s 1); cbn; auto. specialize (IH dst d d' H).
    destruct (bcast_same src dst d), (bcast_same src dst d'); auto. cbn in *. apply F2_concat. now apply F2_repeat.
Qed.
Lemma rt_broadcast_to {A B} (R : A -> B -> Prop) t t' sh : rten R t t' ->
  rr (fun x y => rten R x y /\ shape x = sh) (broadcast_to t sh) (broadcast_to t' sh).
Proof.
  unfold broadcast_to, ndim. intros [-> H]. destruct (Nat.leb (length (shape t')) (length sh)); [|reflexivity].
  pose proof (bcast_same_rel R (repeat 1 (length sh - length (shape t')) ++ shape t') sh _ _ H) as G.
  destruct (bcast_same _ sh (data t)), (bcast_same _ sh (data t')); cbn in *; try contradiction; auto. repeat split; auto.
Qed.
Lemma rt_tbin {A B C A' B' C'} (R : A -> A' -> Prop) (S : B -> B' -> Prop) (T : C -> C' -> Prop) f g x x' y y' :
  (forall a b c d, R a b -> S c d -> T (f a c) (g b d)) -> rten R x x' -> rten S y y' ->
  rr (rten T) (tbin f x y) (tbin g x' y').
Proof.
  intros F X Y. unfold tbin. rewrite (proj1 X), (proj1 Y). destruct (broadcast_shapes (shape x') (shape y')) as [sh|]; [|reflexivity].
  eapply rr_bind; [exact (rt_broadcast_to R _ _ sh X)|]. intros a b [[_ AB] _].
  eapply rr_bind; [exact (rt_broadcast_to S _ _ sh Y)|]. intros a' b' [[_ AB'] _]. split; [reflexivity|].
  cbn. eapply F2_map2; eauto.
Qed.
Lemma F2_sel {A B} (R : A -> B -> Prop) p : forall a a' b b', Forall2 R a a' -> Forall2 R b b' -> Forall2 R (sel p a b) (sel p a' b').
Proof.
  induction p as [|c p IH]; intros a a' b b' H K; cbn; [constructor|]. destruct H; [constructor|]. destruct K; constructor; auto.
  destruct c; auto.
Qed.
Lemma rt_tselect {A B} (R : A -> B -> Prop) p a b a' b' : rten R a a' -> rten R b b' ->
  rr (rten R) (tselect p a b) (tselect p a' b').
Proof.
  unfold tselect. intros [-> X] [-> Y]. destruct (shape_eqb (shape a') (shape b')); [|reflexivity].
  destruct (shape_eqb (shape p) (shape a')); [split; cbn; auto using F2_sel|]. destruct (shape_eqb (shape p) []); [|reflexivity].
  cbn. rewrite (F2_length _ _ _ X). split; cbn; auto using F2_sel.
Qed.
Lemma rt_map {A B C D} (R : A -> B -> Prop) (S : C -> D -> Prop) f g t t' : (forall a b, R a b -> S (f a) (g b)) -> rten R t t' ->
  rten S (tensor_map f t) (tensor_map g t').
Proof. intros F [E H]. split; [exact E|]. cbn. eapply F2_map; eauto. Qed.
Lemma rt_left_broadcast {A B} (R : A -> B -> Prop) t t' sh : rten R t t' ->
  rr (rten R) (setup_left_broadcast t sh) (setup_left_broadcast t' sh).
Proof.
  intros H. unfold setup_left_broadcast, ndim. rewrite !(proj1 H). destruct (Nat.eqb (length (shape t')) 0); [exact H|].
  eapply rr_bind; [apply rr_guard; reflexivity|]. intros _ _ _. cbn [same_outcome].
  generalize (length sh - length (shape t')) as k. clear sh. intros k. revert t t' H.
  induction k as [|k IH]; intros t t' H; cbn [unsqueeze_loop]; [exact H|]. apply IH. destruct H as [E H]. split; cbn; [now rewrite E|exact H].
Qed.
Lemma rt_eq {A} (t t' : tensor A) : rten eq t t' <-> t = t'.
Proof.
  split; [|intros ->; split; [reflexivity|induction (data t'); auto]].
  destruct t as [sh d], t' as [sh' d']. intros [E H]. cbn in *. subst. f_equal. induction H; congruence.
Qed.

(** ** Arrays, states and the methods *)
Section Methods.
  Context {N M : numsys} (R : val N -> val M -> Prop).
  Context (R_zero : R (v_zero N) (v_zero M)) (R_one : R (v_one N) (v_one M)).
  Context (R_add : forall x y x' y', R x y -> R x' y' -> R (v_add N x x') (v_add M y y')).
  Context (R_sub : forall x y x' y', R x y -> R x' y' -> R (v_sub N x x') (v_sub M y y')).
  Context (R_mul : forall x y x' y', R x y -> R x' y' -> R (v_mul N x x') (v_mul M y y')).
  Context (R_max : forall x y x' y', R x y -> R x' y' -> R (v_max N x x') (v_max M y y')).
  Context (R_min : forall x y x' y', R x y -> R x' y' -> R (v_min N x x') (v_min M y y')).
  Context (e : scl N) (e' : scl M) (d : scl N) (d' : scl M).
  Context (R_thr : forall x y, R x y -> v_ltb N (v_of_scl N (s_one_sub N e)) x = v_ltb M (v_of_scl M (s_one_sub M e')) y).
  Context (R_dep : R (v_of_scl N d) (v_of_scl M d')).

  Definition ra (a : array N) (b : array M) : Prop := a_dt a = a_dt b /\ rten R (a_ten a) (a_ten b).
  Notation rt := (ltree ra).
  Notation rd := (ldict rt).
  Record rs (s : state N) (s' : state M) : Prop := mkRs {
    rs_eps : epsilon s = e; rs_eps' : epsilon s' = e';
    rs_dep : depression_constant s = d; rs_dep' : depression_constant s' = d';
    rs_iterations : ra (iterations s) (iterations s');
    rs_residuals : ra (residuals s) (residuals s');
    rs_probabilities : ra (probabilities s) (probabilities s');
    rs_defaults : rd (defaults s) (defaults s');
    rs_accumulators : rd (accumulators s) (accumulators s');
    rs_updates : rd (updates s) (updates s');
    rs_error_mode : error_mode s = error_mode s'
  }.
  Definition rcall (c : call N) (c' : call M) : Prop :=
    match c, c' with
    | CCache k t, CCache k' t' => k = k' /\ rt t t'
    | CIter h, CIter h' => ra h h'
    | CReset, CReset => True
    | _, _ => False
    end.

  Lemma ra_like a b : ra a b -> like_array a b.
  Proof. intros (D & S & _). now split. Qed.
  Lemma rt_like t t' : rt t t' -> like_tree t t'.
  Proof. intros [S F]. split; [exact S|]. revert F. apply F2_impl. exact ra_like. Qed.
  Lemma rd_like x y : rd x y -> like_dict x y.
  Proof. apply F2_impl. intros a b [E T]. split; [exact E|now apply rt_like]. Qed.
  Lemma rs_like s s' : rs s s' -> like s s'.
  Proof. intros []. constructor; auto using ra_like, rd_like. Qed.

  Lemma ra_mk dt t t' : rten R t t' -> ra (mkA dt t) (mkA dt t').
  Proof. split; auto. Qed.
  Lemma rt_none : rt tnone tnone. Proof. split; [reflexivity|constructor]. Qed.
  Lemma rt_is_none t t' : rt t t' -> is_none t = is_none t'.
  Proof. intros H. exact (lt_is_none _ _ (rt_like _ _ H)). Qed.
  Lemma ra_shape a b : ra a b -> a_shape a = a_shape b.
  Proof. intros (_ & S & _). exact S. Qed.

  Lemma ra_bin f g x x' y y' : (forall a b a' b', R a b -> R a' b' -> R (f a a') (g b b')) -> ra x x' -> ra y y' ->
    rr ra (a_bin f x y) (a_bin g x' y').
  Proof.
    intros F [DX X] [DY Y]. unfold a_bin. eapply rr_bind; [exact (rt_tbin R R R f g _ _ _ _ F X Y)|].
    intros t t' H. rewrite DX, DY. now apply ra_mk.
  Qed.
  Lemma ra_select p x x' y y' : ra x x' -> ra y y' -> rr ra (a_select p x y) (a_select p x' y').
  Proof.
    intros [DX X] [DY Y]. unfold a_select. rewrite DX, DY. destruct (dtype_eqb (a_dt x') (a_dt y')); [|reflexivity].
    eapply rr_bind; [exact (rt_tselect R p _ _ _ _ X Y)|]. intros t t' H. now apply ra_mk.
  Qed.
  Lemma ra_map (w : dtype -> dtype) (f : val N -> val N) (g : val M -> val M) a b : (forall x y, R x y -> R (f x) (g y)) -> ra a b ->
    ra (mkA (w (a_dt a)) (tensor_map f (a_ten a))) (mkA (w (a_dt b)) (tensor_map g (a_ten b))).
  Proof. intros F [D X]. rewrite D. apply ra_mk. eapply rt_map; eauto. Qed.
  Lemma R_bool b : R (v_of_bool b) (v_of_bool b). Proof. destruct b; assumption. Qed.
  Lemma rten_bools (m : tensor bool) : rten eq m m. Proof. now apply rt_eq. Qed.
  Lemma ra_mul_bool x x' m : ra x x' -> rr ra (a_mul_bool x m) (a_mul_bool x' m).
  Proof.
    intros [D X]. unfold a_mul_bool.
    eapply rr_bind; [eapply (rt_tbin R eq R); [|exact X|exact (rten_bools m)]; intros; subst; auto using R_bool|].
    intros t t' H. rewrite D. now apply ra_mk.
  Qed.
  Lemma ra_bool_mul x x' m : ra x x' -> rr ra (a_bool_mul m x) (a_bool_mul m x').
  Proof.
    intros [D X]. unfold a_bool_mul.
    eapply rr_bind; [eapply (rt_tbin eq R R); [|exact (rten_bools m)|exact X]; intros; subst; auto using R_bool|].
    intros t t' H. rewrite D. now apply ra_mk.
  Qed.
  Lemma ra_gt a b s s' : ra a b -> rs s s' -> gt_scl a (halt_threshold s) = gt_scl b (halt_threshold s').
  Proof.
    intros [_ X] H. apply rt_eq. unfold gt_scl. eapply rt_map; [|exact X]. intros x y Hx. unfold halt_threshold.
    rewrite (rs_eps _ _ H), (rs_eps' _ _ H). now apply R_thr.
  Qed.
  Lemma rs_halted s s' : rs s s' -> halted_batches s = halted_batches s'.
  Proof. intros H. apply ra_gt; [apply H|exact H]. Qed.
  Lemma rs_bools s s' : rs s s' -> updates_ready_to_commit s = updates_ready_to_commit s' /\ has_cached_updates s = has_cached_updates s'.
  Proof. intros H. exact (lk_bools _ _ (rs_like _ _ H)). Qed.

  Definition rargs (r : replace_args N) (r' : replace_args M) : Prop :=
    r_epsilon r = None /\ r_epsilon r' = None /\ lopt ra (r_iterations r) (r_iterations r') /\
    lopt ra (r_residuals r) (r_residuals r') /\ lopt ra (r_probabilities r) (r_probabilities r') /\
    lopt rd (r_accumulators r) (r_accumulators r') /\ lopt rd (r_defaults r) (r_defaults r') /\
    lopt rd (r_updates r) (r_updates r') /\ r_depression_constant r = None /\ r_depression_constant r' = None /\
    r_error_mode r = None /\ r_error_mode r' = None.
  Lemma rs_replace s s' r r' : rs s s' -> rargs r r' -> rr rs (replace s r) (replace s' r').
  Proof.
    intros [] (R1 & R1' & R2 & R3 & R4 & R5 & R6 & R7 & R8 & R8' & R9 & R9'). destruct r, r'. cbn in *. unfold replace. cbn. subst. cbn.
    repeat match goal with H : lopt _ ?o ?o' |- _ => destruct o, o'; cbn in H; try contradiction end; cbn; auto;
    constructor; cbn; auto.
  Qed.
  Ltac args := repeat split; cbn; auto.

  Lemma rs_cache s s' name item item' : rs s s' -> rt item item' -> rr rs (cache_update s name item) (cache_update s' name item').
  Proof.
    intros H I. unfold cache_update. pose proof (ldict_get rt name _ _ (rs_updates _ _ H)) as G.
    destruct (dget name (updates s)) as [t|], (dget name (updates s')) as [t'|]; try contradiction; [|reflexivity].
    rewrite (rt_is_none _ _ G). destruct (negb (is_none t')); [reflexivity|]. apply rs_replace; [exact H|].
    args. apply (ldict_set rt); [exact (rs_updates _ _ H)|exact I].
  Qed.

  Lemma rs_process s s' h h' : rs s s' -> ra h h' ->
    rr (fun p p' => ra (fst (fst p)) (fst (fst p')) /\ ra (snd (fst p)) (snd (fst p')) /\ ra (snd p) (snd p'))
       (process_probabilities s h) (process_probabilities s' h').
  Proof.
    intros H Hh. unfold process_probabilities.
    assert (H1 : ra (a_scale (depression_constant s) h) (a_scale (depression_constant s') h')).
    { rewrite (rs_dep _ _ H), (rs_dep' _ _ H). apply (ra_map weak_float); auto. }
    assert (RW : ra (a_one_minus (probabilities s)) (a_one_minus (probabilities s'))).
    { apply (ra_map weak_int); [auto|apply H]. }
    eapply rr_bind; [exact (ra_bin _ _ _ _ _ _ R_add H1 (rs_probabilities _ _ H))|]. intros sum sum' Hs.
    rewrite (ra_gt _ _ _ _ Hs H), (rs_halted _ _ H).
    eapply rr_bind; [eapply (rt_tbin eq eq eq andb andb); [intros; congruence|apply rten_bools|apply rten_bools]|]. intros nh nh' Hn.
    apply rt_eq in Hn. subst nh'.
    eapply rr_bind; [exact (ra_select _ _ _ _ _ RW (rs_residuals _ _ H))|]. intros r r' Hr.
    eapply rr_bind; [exact (ra_select _ _ _ _ _ RW H1)|]. intros h2 h2' Hh2.
    eapply rr_bind; [exact (ra_bin _ _ _ _ _ _ R_add (rs_probabilities _ _ H) Hh2)|]. intros p p' Hp. cbn. auto.
  Qed.
  Lemma rs_update_acc s s' h h' a a' u u' : rs s s' -> ra h h' -> ra a a' -> ra u u' ->
    rr ra (update_accumulator s h a u) (update_accumulator s' h' a' u').
  Proof.
    intros H Hh A U. unfold update_accumulator. rewrite (ra_shape _ _ A), (ra_shape _ _ U), (rs_halted _ _ H).
    eapply rr_bind; [apply rr_guard; reflexivity|]. intros _ _ _.
    eapply rr_bind; [exact (rt_left_broadcast R _ _ _ (proj2 Hh))|]. intros x x' Hx.
    eapply (rr_bind eq); [destruct (setup_left_broadcast _ _); reflexivity|]. intros b b' <-.
    eapply (rr_bind eq); [destruct (broadcast_to _ _); reflexivity|]. intros c c' <-. rewrite (proj1 Hh).
    eapply rr_bind; [exact (ra_bin _ _ _ _ _ _ R_mul (ra_mk (a_dt h') _ _ Hx) U)|]. intros w w' Hw.
    eapply rr_bind; [exact (ra_bin _ _ _ _ _ _ R_add A Hw)|]. intros n n' Hn.
    exact (ra_select _ _ _ _ _ A Hn).
  Qed.
  Lemma rs_iterate_loop s s' h h' names : rs s s' -> ra h h' -> forall accs accs' upds upds', rd accs accs' -> rd upds upds' ->
    rr (fun p p' => rd (fst p) (fst p') /\ rd (snd p) (snd p')) (iterate_loop s h names accs upds) (iterate_loop s' h' names accs' upds').
  Proof.
    intros H Hh. induction names as [|name names IH]; intros accs accs' upds upds' A U; cbn [iterate_loop]; [cbn; auto|].
    eapply rr_bind; [apply rr_rewrap|].
    - eapply rr_bind; [exact (rr_dlookup rt name _ _ A)|]. intros acc acc' Ha.
      eapply rr_bind; [exact (rr_dlookup rt name _ _ U)|]. intros upd upd' Hu.
      eapply rr_bind; [apply rr_guard; now rewrite (rt_is_none _ _ Hu)|]. intros _ _ _.
      eapply rr_bind; [exact (rr_merge ra ra ra _ _ _ _ _ _ Ha Hu (fun a b a' b' X Y => rs_update_acc s s' h h' a b a' b' H Hh X Y))|].
      intros n n' Hn. instantiate (1 := fun p p' => rd (fst p) (fst p') /\ rd (snd p) (snd p')). cbn.
      split; [now apply (ldict_set rt)|apply (ldict_set rt); [assumption|exact rt_none]].
    - intros [a u] [a' u'] [X Y]. now apply IH.
  Qed.
  Lemma rs_iterate s s' h h' : rs s s' -> ra h h' -> rr rs (iterate_act s h) (iterate_act s' h').
  Proof.
    intros H Hh. unfold iterate_act.
    eapply rr_bind; [apply rr_guard; now rewrite (ra_shape _ _ Hh), (ra_shape _ _ (rs_probabilities _ _ H))|]. intros _ _ _.
    assert (H0 : ra (a_clip01 h) (a_clip01 h')) by (apply (ra_map weak_float); auto).
    eapply rr_bind; [exact (rs_process _ _ _ _ H H0)|]. intros [[x r] p] [[x' r'] p'] (X & Rr & P). cbn [fst snd] in *.
    rewrite (ldict_keys rt _ _ (rs_accumulators _ _ H)).
    eapply rr_bind; [exact (rs_iterate_loop _ _ _ _ _ H X _ _ _ _ (rs_accumulators _ _ H) (rs_updates _ _ H))|].
    intros [accs upds] [accs' upds'] [A U]. cbn [fst snd] in *. rewrite (rs_halted _ _ H).
    eapply rr_bind.
    { apply ra_select; [exact (rs_iterations _ _ H)|apply (ra_map weak_int); [auto|exact (rs_iterations _ _ H)]]. }
    intros i i' I. apply rs_replace; [exact H|]. args; try apply I; try apply Rr; try apply P.
  Qed.

  Lemma rs_reset_leaf m w w' a a' x x' : rt w w' -> ra a a' -> ra x x' ->
    rr ra (reset_leaf m w a x) (reset_leaf m w' a' x').
  Proof.
    intros W A D. unfold reset_leaf. eapply (rr_bind eq).
    - unfold setup_left_broadcast_obj. destruct (Nat.eqb (ndim m) 0); [reflexivity|].
      destruct W as [T L]. destruct w as [y|], w' as [y'|]; cbn in T; try discriminate; [|reflexivity].
      inversion L as [|? ? ? ? X _]; subst. rewrite (ra_shape _ _ X). destruct (setup_left_broadcast _ _); reflexivity.
    - intros y y' <-. rewrite (ra_shape _ _ A).
      eapply (rr_bind eq); [destruct (broadcast_to _ _); reflexivity|]. intros z z' <-. now apply ra_select.
  Qed.
  Lemma rs_reset_loop s s' m names : rs s s' -> forall out out', rd out out' ->
    rr rd (reset_loop s m names out) (reset_loop s' m names out').
  Proof.
    intros H. induction names as [|name names IH]; intros out out' O; cbn [reset_loop]; [exact O|].
    eapply rr_bind; [exact (rr_dlookup rt name _ _ (rs_accumulators _ _ H))|]. intros acc acc' Ha.
    eapply rr_bind; [exact (rr_dlookup rt name _ _ (rs_defaults _ _ H))|]. intros def def' Hd.
    eapply rr_bind; [exact (rr_merge ra ra ra _ _ _ _ _ _ Ha Hd (fun a b a' b' X Y => rs_reset_leaf m acc acc' a b a' b' Ha X Y))|].
    intros n n' Hn. apply IH. now apply (ldict_set rt).
  Qed.
  Lemma rs_reset s s' : rs s s' -> rr rs (reset_batches s) (reset_batches s').
  Proof.
    intros H. unfold reset_batches. rewrite (proj2 (rs_bools _ _ H)), (rs_halted _ _ H).
    eapply rr_bind; [apply rr_guard; reflexivity|]. intros _ _ _.
    eapply rr_bind; [exact (ra_mul_bool _ _ _ (rs_iterations _ _ H))|]. intros i i' I.
    eapply rr_bind; [exact (ra_mul_bool _ _ _ (rs_probabilities _ _ H))|]. intros p p' P.
    eapply rr_bind; [exact (ra_mul_bool _ _ _ (rs_residuals _ _ H))|]. intros r r' Rr.
    rewrite (ldict_keys rt _ _ (rs_accumulators _ _ H)).
    eapply rr_bind; [exact (rs_reset_loop _ _ _ _ H [] [] (Forall2_nil _))|]. intros a a' A.
    apply rs_replace; [exact H|]. args; try apply I; try apply Rr; try apply P.
  Qed.
  Lemma rs_call s s' c c' : rs s s' -> rcall c c' -> rr rs (apply_call s c) (apply_call s' c').
  Proof.
    intros H C. destruct c, c'; cbn in C; try contradiction; cbn [apply_call].
    - destruct C as [-> C]. now apply rs_cache.
    - now apply rs_iterate.
    - now apply rs_reset.
  Qed.
  Lemma rs_run cs cs' : Forall2 rcall cs cs' -> forall s s', rs s s' -> rs (run s cs) (run s' cs').
  Proof.
    unfold run. induction 1 as [|c c' cs cs' C _ IH]; intros s s' H; [exact H|]. cbn. apply IH. unfold after.
    pose proof (rs_call _ _ _ _ H C) as G. destruct (apply_call s c), (apply_call s' c'); cbn in G; try contradiction; auto.
  Qed.

  (** viewers *)
  Lemma rs_transform s s' f g : rs s s' -> (forall a b, ra a b -> rr ra (f a) (g b)) -> rr rs (transform s f) (transform s' g).
  Proof.
    intros H F. unfold transform.
    eapply (rr_bind (fun p p' => let '(i, r, pr, a, x, u) := p in let '(i', r', pr', a', x', u') := p' in
       ra i i' /\ ra r r' /\ ra pr pr' /\ rd a a' /\ rd x x' /\ rd u u')).
    - apply rr_rewrap. eapply rr_bind; [exact (F _ _ (rs_iterations _ _ H))|]. intros i i' I.
      eapply rr_bind; [exact (F _ _ (rs_residuals _ _ H))|]. intros r r' Rr.
      eapply rr_bind; [exact (F _ _ (rs_probabilities _ _ H))|]. intros p p' P.
      assert (FT : forall t t', rt t t' -> rr rt (tree_mapM f t) (tree_mapM g t')) by (intros t t' T; exact (rr_tree_mapM ra ra _ _ _ _ T F)).
      eapply rr_bind; [exact (rr_dmapM rt rt _ _ _ _ (rs_accumulators _ _ H) FT)|]. intros a a' A.
      eapply rr_bind; [exact (rr_dmapM rt rt _ _ _ _ (rs_defaults _ _ H) FT)|]. intros x x' D.
      eapply rr_bind; [exact (rr_dmapM rt rt _ _ _ _ (rs_defaults _ _ H) FT)|]. intros u u' U. cbn. auto 10.
    - intros [[[[[i r] p] a] x] u] [[[[[i' r'] p'] a'] x'] u'] (I & Rr & P & A & D & U).
      apply rs_replace; [exact H|]. args; try apply I; try apply Rr; try apply P.
  Qed.
  Lemma rs_mask_data s s' dt m : rs s s' -> rr rs (mask_data s dt m) (mask_data s' dt m).
  Proof.
    intros H. unfold mask_data. rewrite (ra_shape _ _ (rs_probabilities _ _ H)).
    eapply rr_bind; [apply rr_guard; reflexivity|]. intros _ _ _.
    eapply rr_bind; [apply rr_guard; reflexivity|]. intros _ _ _.
    apply rs_transform; [exact H|]. intros a b A. unfold mask_leaf. rewrite (ra_shape _ _ A).
    eapply (rr_bind eq); [destruct (setup_left_broadcast _ _); reflexivity|]. intros x x' <-. now apply ra_bool_mul.
  Qed.
  Lemma rs_halted_views s s' : rs s s' -> rr rs (unhalted_only s) (unhalted_only s') /\ rr rs (halted_only s) (halted_only s').
  Proof. intros H. unfold unhalted_only, halted_only. rewrite (rs_halted _ _ H). split; now apply rs_mask_data. Qed.

  (** ** The loop of execute_act *)
  Definition ritem (i : item N) (i' : item M) : Prop :=
    match i, i' with
    | ISame, ISame => True | ICtrl c, ICtrl c' => rs c c' | IObj t, IObj t' => rt t t' | _, _ => False
    end.
  Definition rret (r : ret N) (r' : ret M) : Prop :=
    match r, r' with RTuple l, RTuple l' => Forall2 ritem l l' | ROther t, ROther t' => rt t t' | _, _ => False end.
  Context (l : layer N) (l' : layer M).
  Context (LL : forall c c' u u', rs c c' -> rt u u' -> rr rret (l_run_iteration l c u) (l_run_iteration l' c' u')).

  Definition rpair (p : state N * tree (array N)) (p' : state M * tree (array M)) : Prop :=
    rs (fst p) (fst p') /\ rt (snd p) (snd p').
  Definition rcarry (x : @carry N) (x' : @carry M) : Prop := rpair (fst x) (fst x') /\ snd x = snd x'.

  Lemma rret_like r r' : rret r r' -> like_ret r r'.
  Proof.
    destruct r, r'; cbn; try easy; [|apply rt_like]. apply F2_impl. intros [] []; cbn; auto using rs_like, rt_like.
  Qed.
  Lemma rs_unpack c c' r r' : rs c c' -> rret r r' -> rr rpair (unpack c r) (unpack c' r').
  Proof.
    intros H Rr. destruct r as [is|t], r' as [is'|t']; cbn in Rr; try contradiction; [|cbn; rewrite (lt_iter_length _ _ (rt_like _ _ Rr)); destruct (iter_length t') as [[|[|[|]]]|]; reflexivity].
    destruct Rr as [|i i' is is' Hi Rr]; [reflexivity|]. destruct i, i'; cbn in Hi; try contradiction;
      (destruct Rr as [|j j' is is' Hj Rr]; [reflexivity|]); destruct j, j'; cbn in Hj; try contradiction;
      destruct Rr; cbn; auto; split; auto.
  Qed.
  Lemma rs_adapter check x x' : rcarry x x' -> rr rcarry (run_layer_adapter check l x) (run_layer_adapter check l' x').
  Proof.
    destruct x as [[c u] m], x' as [[c' u'] m']. intros [[H U] Em]. cbn in H, U, Em. subst m'. unfold run_layer_adapter, wrapped_run_iteration.
    eapply (rr_bind rret).
    - eapply rr_bind; [exact (LL _ _ _ _ H U)|]. intros r r' Rr.
      eapply (rr_bind (fun _ _ => True)); [|intros _ _ _; exact Rr]. destruct check; [|exact I].
      exact (rr_validate_update _ _ _ _ (rs_like _ _ H) (rret_like _ _ Rr)).
    - intros r r' Rr. eapply rr_bind; [exact (rs_unpack _ _ _ _ H Rr)|]. intros [c1 u1] [c1' u1'] L. split; auto.
  Qed.
  Lemma rs_canonical s s' : rs s s' -> rs (canonical s) (canonical s').
  Proof. intros []. constructor; cbn; auto; now apply (ldict_sort rt). Qed.
  Lemma rs_rebuild x x' : rcarry x x' -> rr rcarry (rebuild x) (rebuild x').
  Proof.
    destruct x as [[c u] m], x' as [[c' u'] m']. intros [[H U] Em]. cbn in H, U, Em. subst m'. rewrite !rebuild_ok.
    split; [split; cbn; [now apply rs_canonical|exact U]|reflexivity].
  Qed.
  Lemma rs_not_complete x x' : rcarry x x' -> is_act_not_complete x = is_act_not_complete x'.
  Proof.
    destruct x as [[c u] m], x' as [[c' u'] m']. intros [[H U] Em]. cbn in H, U, Em. subst m'. unfold is_act_not_complete, is_completely_halted.
    now rewrite (rs_halted _ _ H).
  Qed.
  Lemma rs_while_fuel check fuel : forall x x', rcarry x x' ->
    rr rcarry (while_fuel fuel (run_layer_adapter check l) x) (while_fuel fuel (run_layer_adapter check l') x').
  Proof.
    induction fuel as [|fuel IH]; intros x x' H; cbn [while_fuel]; (eapply rr_bind; [exact (rs_rebuild _ _ H)|]); intros y y' Hy;
      rewrite (rs_not_complete _ _ Hy); destruct (is_act_not_complete y'); try reflexivity; try exact Hy.
    eapply rr_bind; [exact (rs_adapter check _ _ Hy)|]. intros z z' Hz. now apply IH.
  Qed.
  Lemma rs_while check x x' : rcarry x x' ->
    rr rcarry (while_loop (run_layer_adapter check l) x) (while_loop (run_layer_adapter check l') x').
  Proof.
    intros H. unfold while_loop. destruct x as [[c u] m] eqn:EX, x' as [[c' u'] m'] eqn:EX'. pose proof H as [[Hc Hu] Hm]. cbn in Hc, Hu, Hm.
    eapply rr_bind; [apply rr_guard; exact (leaves_ok_like _ _ (rs_like _ _ Hc))|]. intros _ _ _.
    eapply rr_bind; [exact (rs_rebuild _ _ H)|]. intros y y' Hy.
    eapply rr_bind; [exact (rs_adapter check _ _ Hy)|]. intros z z' [[Hzc Hzu] _].
    eapply rr_bind; [apply rr_guard|].
    { destruct z as [[cz uz] mz], z' as [[cz' uz'] mz']. cbn in Hzc, Hzu. apply Bool.eq_true_iff_eq. rewrite !same_abstract_iff.
      rewrite (abstract_like _ _ (rs_like _ _ Hc)), (abstract_like _ _ (rs_like _ _ Hzc)).
      rewrite (proj1 (abstract_user_like _ _) (rt_like _ _ Hu)), (proj1 (abstract_user_like _ _) (rt_like _ _ Hzu)). reflexivity. }
    intros _ _ _. subst m'. exact (rs_while_fuel check _ _ _ H).
  Qed.
End Methods.
