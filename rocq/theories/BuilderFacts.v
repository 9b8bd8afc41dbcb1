From Verif Require Import Base PyTree Tensor Num Utils States Controller Builder Wf History ElementSpec BuilderSpec.
From Verif Require Import BaseFacts PyTreeFacts TensorFacts ControllerFacts IterateFacts.

Lemma to_shape_ok zs sh : to_shape zs = Ok sh <-> Forall (fun z => 0 <= z)%Z zs /\ sh = shape_of zs.
Proof.
  unfold to_shape, shape_of. revert sh. induction zs as [|z zs IH]; intros sh; cbn [mapM map].
  - split; [intros [= <-]; auto|intros [_ ->]; reflexivity].
  - destruct (Z.leb_spec 0 z) as [Hz|Hz]; cbn [bind].
    + destruct (mapM _ zs) as [ys|e] eqn:E; cbn [bind].
      * destruct (proj1 (IH ys) eq_refl) as [F ->]. split.
        -- intros [= <-]. split; [now constructor|reflexivity].
        -- intros [_ ->]. reflexivity.
      * split; [discriminate|]. intros [F ->]. inversion F; subst.
        specialize (IH (map Z.to_nat zs)). destruct IH as [_ IH]. discriminate IH. auto.
    + split; [discriminate|]. intros [F _]. inversion F; subst. lia.
Qed.
Lemma to_shape_err zs e : to_shape zs = Err e -> e = JaxError /\ ~ Forall (fun z => 0 <= z)%Z zs.
Proof.
  intros H. split.
  - revert H. unfold to_shape. induction zs as [|z zs IH]; cbn [mapM]; [discriminate|].
    destruct (Z.leb 0 z); cbn [bind]; [|congruence]. destruct (mapM _ zs); cbn [bind]; [discriminate|]. auto.
  - intros F. pose proof (proj2 (to_shape_ok zs _) (conj F eq_refl)) as X. congruence.
Qed.

Lemma mapM_unit_ok {A} (f : A -> res unit) l :
  (exists us, mapM f l = Ok us) <-> Forall (fun x => f x = Ok tt) l.
Proof.
  induction l as [|x l IH]; cbn [mapM].
  - split; [constructor|eauto].
  - destruct (f x) as [[]|e] eqn:E; cbn [bind].
    + destruct (mapM f l) as [us|e']; cbn [bind].
      * split; [|eauto]. intros _. constructor; [assumption|]. apply IH. eauto.
      * split; [intros [? ?]; discriminate|]. intros F. inversion F; subst. destruct IH as [_ IH].
        destruct (IH H2) as [? ?]. discriminate.
    + split; [intros [? ?]; discriminate|]. intros F. inversion F; subst. congruence.
Qed.
Lemma mapM_err {A B} (f : A -> res B) l e : mapM f l = Err e -> exists x, In x l /\ f x = Err e.
Proof.
  induction l as [|x l IH]; cbn [mapM]; [discriminate|].
  destruct (f x) as [y|e'] eqn:E; cbn [bind].
  - destruct (mapM f l) as [ys|e']; cbn [bind]; [discriminate|]. intros [= ->].
    destruct (IH eq_refl) as (z & Hz & Ez). exists z. split; [now right|assumption].
  - intros [= ->]. exists x. split; [now left|assumption].
Qed.

Lemma Forall2_len {A B} (R : A -> B -> Prop) l1 l2 : Forall2 R l1 l2 -> length l1 = length l2.
Proof. induction 1; cbn; congruence. Qed.
Lemma app_split {A} (a1 a2 b1 b2 : list A) : length a1 = length a2 -> a1 ++ b1 = a2 ++ b2 -> a1 = a2 /\ b1 = b2.
Proof.
  revert a2. induction a1 as [|x a1 IH]; intros [|y a2] H E; try discriminate; [auto|].
  injection H as H. injection E as -> E. destruct (IH _ H E). split; congruence.
Qed.

Section Builder.
  Context {N : numsys}.
  Notation st := (state N).
  Notation tr := (tree (array N)).

  (** ** new_builder *)
  Definition empty_state (sh : list nat) (d : dtype) (eps dep : scl N) (m : option string) : st :=
    mkState eps (a_full sh (v_zero N) d) (a_full sh (v_zero N) d) (a_full sh (v_zero N) d) [] [] [] dep m.
  Definition core (cd : option dtype) : dtype := match cd with Some d => d | None => DF32 end.
  Definition eps_sane (eps : scl N) : Prop := s_leb N (s_one N) eps = false /\ s_leb N eps (s_zero N) = false.

  Theorem new_builder_with_ok m b cd eps dep s :
    new_builder_with (Some m) b cd eps dep = Ok s <->
    is_floating (core cd) = true /\ eps_sane eps /\ Forall (fun z => 0 <= z)%Z (batch_dims b) /\
    s = empty_state (shape_of (batch_dims b)) (core cd) eps dep m.
  Proof.
    unfold new_builder_with, act_states, eps_sane.
    assert (Efl : match cd with None => true | Some d => is_floating d end = is_floating (core cd)) by now destruct cd.
    rewrite Efl. destruct (is_floating (core cd)) eqn:Ef; cbn [guard bind].
    2:{ split; [discriminate|]. intros (X & _). discriminate. }
    destruct (s_leb N (s_one N) eps) eqn:E1; cbn [orb negb guard bind].
    { split; [discriminate|]. intros (_ & (X & _) & _). discriminate. }
    destruct (s_leb N eps (s_zero N)) eqn:E2; cbn [orb negb guard bind].
    { split; [discriminate|]. intros (_ & (_ & X) & _). discriminate. }
    destruct (to_shape (batch_dims b)) as [sh|e] eqn:Es; cbn [bind].
    - apply to_shape_ok in Es as [F ->]. split.
      + intros [= <-]. repeat split; auto.
      + intros (_ & _ & _ & ->). destruct cd; reflexivity.
    - apply to_shape_err in Es as [_ X]. split; [discriminate|]. intros (_ & _ & F & _). contradiction.
  Qed.
  Theorem new_builder_never b cd eps dep s : new_builder (N := N) b cd eps dep <> Ok s.
  Proof.
    unfold new_builder, new_builder_with, act_states.
    destruct (guard _ _) as [[]|]; cbn [bind]; [|discriminate].
    destruct (guard _ _) as [[]|]; cbn [bind]; [|discriminate].
    destruct (to_shape _); discriminate.
  Qed.
  Theorem new_builder_type_error b cd eps dep :
    is_floating (core cd) = true -> eps_sane eps -> Forall (fun z => 0 <= z)%Z (batch_dims b) ->
    new_builder (N := N) b cd eps dep = Err TypeError.
  Proof.
    intros Hf [E1 E2] F. unfold new_builder, new_builder_with, act_states.
    assert (Efl : match cd with None => true | Some d => is_floating d end = true) by (destruct cd; exact Hf).
    rewrite Efl, E1, E2. cbn [guard bind orb negb].
    rewrite (proj2 (to_shape_ok _ _) (conj F eq_refl)). reflexivity.
  Qed.
  Theorem new_builder_value_error em b cd eps dep :
    new_builder_with (N := N) em b cd eps dep = Err ValueError <->
    is_floating (core cd) = false \/ ~ eps_sane eps.
  Proof.
    unfold new_builder_with, act_states, eps_sane.
    assert (Efl : match cd with None => true | Some d => is_floating d end = is_floating (core cd)) by now destruct cd.
    rewrite Efl. destruct (is_floating (core cd)) eqn:Ef; cbn [guard bind]; [|tauto].
    destruct (s_leb N (s_one N) eps) eqn:E1; cbn [orb negb guard bind].
    { split; [|reflexivity]. intros _. right. intros [X _]. discriminate. }
    destruct (s_leb N eps (s_zero N)) eqn:E2; cbn [orb negb guard bind].
    { split; [|reflexivity]. intros _. right. intros [_ X]. discriminate. }
    split; [|intros [X|X]; [discriminate|exfalso; apply X; auto]].
    destruct (to_shape (batch_dims b)) as [sh|e] eqn:Es; cbn [bind].
    - destruct em; discriminate.
    - apply to_shape_err in Es as [-> _]. discriminate.
  Qed.

  (** ** Definitions *)
  Lemma prefix_iff (B sh : list nat) :
    Nat.ltb (length sh) (length B) = false /\ shape_eqb (firstn (length B) sh) B = true <->
    exists R, sh = B ++ R.
  Proof.
    rewrite shape_eqb_eq, Nat.ltb_ge. split.
    - intros [_ H]. exists (skipn (length B) sh). now rewrite <- H at 1; rewrite firstn_skipn.
    - intros [R ->]. rewrite app_length. split; [lia|]. rewrite firstn_app, firstn_all, Nat.sub_diag.
      cbn. now rewrite app_nil_r.
  Qed.
  Lemma validate_leaf_cases B (a : array N) :
    (validate_leaf B a = Ok tt /\ is_floating (a_dt a) = true /\ batch_prefixed B a) \/
    (validate_leaf B a = Err TypeError /\ is_floating (a_dt a) = false) \/
    (validate_leaf B a = Err ValueError /\ is_floating (a_dt a) = true /\ ~ batch_prefixed B a).
  Proof.
    unfold validate_leaf, batch_prefixed. destruct (is_floating (a_dt a)) eqn:Ef; cbn [guard bind]; [|tauto].
    pose proof (prefix_iff B (a_shape a)) as P.
    destruct (Nat.ltb (length (a_shape a)) (length B)) eqn:E1; cbn [negb guard bind].
    - right; right. repeat split; auto. intros X. apply P in X as [X _]. discriminate.
    - destruct (shape_eqb (firstn (length B) (a_shape a)) B) eqn:E2; cbn [guard].
      + left. repeat split; auto. now apply P.
      + right; right. repeat split; auto. intros X. apply P in X as [_ X]. discriminate.
  Qed.
  Definition definition_ok (s : st) (t : tr) : Prop :=
    Forall (fun a => is_floating (a_dt a) = true /\ batch_prefixed (batch_shape s) a) (leaves t).
  Definition defined (s : st) (name : string) (t : tr) : st :=
    mkState (epsilon s) (iterations s) (residuals s) (probabilities s)
      (dset name t (defaults s)) (dset name t (accumulators s)) (dset name tnone (updates s))
      (depression_constant s) (error_mode s).
  Theorem define_char (s : st) name t :
    (definition_ok s t /\ define s name t = Ok (defined s name t)) \/
    (exists a, In a (leaves t) /\ is_floating (a_dt a) = false /\ define s name t = Err TypeError) \/
    (exists a, In a (leaves t) /\ is_floating (a_dt a) = true /\ ~ batch_prefixed (batch_shape s) a /\
       define s name t = Err ValueError).
  Proof.
    unfold define, validate_definition. fold (batch_shape s).
    destruct (mapM (validate_leaf (batch_shape s)) (leaves t)) as [us|e] eqn:E; cbn [bind].
    - left. split; [|reflexivity].
      assert (X : exists us, mapM (validate_leaf (batch_shape s)) (leaves t) = Ok us) by eauto.
      apply mapM_unit_ok in X. unfold definition_ok. eapply Forall_impl; [|exact X]. cbn. intros a Ha.
      destruct (validate_leaf_cases (batch_shape s) a) as [(_ & A & B)|[(A & _)|(A & _)]]; [auto|congruence|congruence].
    - right. apply mapM_err in E as (a & Ha & Ea).
      destruct (validate_leaf_cases (batch_shape s) a) as [(A & _)|[(A & B)|(A & B & C)]]; [congruence| |].
      + left. exists a. repeat split; auto. congruence.
      + right. exists a. repeat split; auto. congruence.
  Qed.
  Theorem define_ok_iff (s s' : st) name t :
    define s name t = Ok s' <-> definition_ok s t /\ s' = defined s name t.
  Proof.
    destruct (define_char s name t) as [[A B]|[(a & A & B & C)|(a & A & B & C & D)]].
    - rewrite B. split; [intros [= <-]; auto|intros [_ ->]; reflexivity].
    - rewrite C. split; [discriminate|]. intros [X _]. unfold definition_ok in X. rewrite Forall_forall in X.
      destruct (X a A). congruence.
    - rewrite D. split; [discriminate|]. intros [X _]. unfold definition_ok in X. rewrite Forall_forall in X.
      destruct (X a A). contradiction.
  Qed.

  (** ** by shape *)
  Lemma all_ints_iff cs zs : all_ints cs = Some zs <-> cs = map (fun z => Leaf (SInt z)) zs.
  Proof.
    revert zs. induction cs as [|c cs IH]; intros zs; cbn [all_ints].
    - destruct zs; split; intros H; try discriminate; reflexivity.
    - destruct c as [[z|]|n ds]; try (split; [discriminate|]; destruct zs; discriminate).
      destruct (all_ints cs) as [ys|] eqn:E.
      + destruct zs as [|z' zs]; [split; discriminate|]. cbn [map]. split.
        * intros [= -> ->]. f_equal. now apply IH.
        * intros [= -> Hcs]. apply IH in Hcs. congruence.
      + split; [discriminate|]. destruct zs as [|z' zs]; [discriminate|]. intros [= -> Hcs]. apply IH in Hcs. discriminate.
  Qed.
  Lemma collapse_list zs : collapse (int_list zs) = Leaf (Some zs).
  Proof. unfold int_list. cbn [collapse]. now rewrite (proj2 (all_ints_iff _ zs) eq_refl). Qed.
  Lemma collapse_node n cs : (forall zs, Node n cs <> int_list zs) -> collapse (Node n cs) = Node n (map collapse cs).
  Proof.
    intros H. cbn [collapse]. destruct n; try reflexivity. destruct (all_ints cs) as [zs|] eqn:E; [|reflexivity].
    apply all_ints_iff in E. exfalso. apply (H zs). unfold int_list. now rewrite E.
  Qed.
  Lemma is_int_list_dec n cs : (exists zs, Node n cs = int_list zs) \/ (forall zs, Node n cs <> int_list zs).
  Proof.
    destruct n; try (right; intros zs; discriminate).
    destruct (all_ints cs) as [zs|] eqn:E.
    - left. exists zs. apply all_ints_iff in E. unfold int_list. now rewrite E.
    - right. intros zs [= H]. apply all_ints_iff in H. congruence.
  Qed.

  (** what the loop of [define_accumulator_by_shape] computes *)
  Definition made (d : dtype) (fill : scl N) (shapes : tree sleaf) : res tr :=
    tree_mapM (make_leaf d fill) (collapse shapes).
  Lemma tree_mapM_nodes {A B} (f : A -> res B) n ts t' :
    tree_mapM f (Node n ts) = Ok t' <->
    exists ts', t' = Node n ts' /\ Forall2 (fun t t' => tree_mapM f t = Ok t') ts ts'.
  Proof.
    rewrite tree_mapM_ok. split.
    - intros [Hs HF]. destruct t' as [x|m ts']; [discriminate|]. rewrite !structure_Node in Hs.
      injection Hs as -> Hm. exists ts'. split; [reflexivity|].
      cbn [leaves] in HF. revert ts' Hm HF. induction ts as [|t ts IH]; intros [|t' ts'] Hm HF; try discriminate; [constructor|].
      cbn [map] in Hm. injection Hm as H1 H2. cbn [flat_map] in HF.
      assert (HL : length (leaves t) = length (leaves t')) by (apply structure_eq_length; congruence).
      apply Forall2_app_inv_l in HF as (l1 & l2 & F1 & F2 & E).
      assert (E1 : leaves t' = l1 /\ flat_map leaves ts' = l2)
        by (apply Forall2_len in F1; apply app_split; [congruence|exact E]).
      destruct E1 as [<- <-]. constructor; [|now apply IH]. apply tree_mapM_ok. auto.
    - intros (ts' & -> & HF). rewrite !structure_Node. cbn [leaves].
      induction HF as [|t t' ts ts' H _ [IH1 IH2]]; [split; [reflexivity|constructor]|].
      apply tree_mapM_ok in H as [H1 H2]. injection IH1 as IH1. cbn [map flat_map]. split.
      + now rewrite H1, IH1.
      + now apply Forall2_app.
  Qed.

  Lemma tree_mapM_leaf {A B} (f : A -> res B) x t' :
    tree_mapM f (Leaf x) = Ok t' <-> exists y, f x = Ok y /\ t' = Leaf y.
  Proof.
    rewrite tree_mapM_ok. split.
    - intros [Hs HF]. destruct t' as [y|m ts']; [|discriminate]. cbn in HF. inversion HF; subst. eauto.
    - intros (y & Hy & ->). split; [reflexivity|]. cbn. now repeat constructor.
  Qed.
  Lemma int_list_inj zs zs' : int_list zs = int_list zs' -> zs = zs'.
  Proof.
    unfold int_list. intros [= H]. revert zs' H. induction zs as [|z zs IH]; intros [|y zs'] E; try discriminate; [reflexivity|].
    cbn [map] in E. injection E as -> E. f_equal. now apply IH.
  Qed.
  Lemma describes_inv d fill shapes (t : tr) : describes d fill shapes t ->
    (exists zs, shapes = int_list zs /\ Forall (fun z => 0 <= z)%Z zs /\
       t = Leaf (mkA d (mkT (shape_of zs) (repeat fill (size (shape_of zs)))))) \/
    (exists n cs ts, shapes = Node n cs /\ t = Node n ts /\ (forall zs, Node n cs <> int_list zs) /\
       Forall2 (describes d fill) cs ts).
  Proof. intros [zs F|n cs ts Hn F]; [left|right]; eauto 10. Qed.
  Lemma a_full_eq sh (v : val N) d : a_full sh v d = mkA d (mkT sh (repeat v (size sh))).
  Proof. reflexivity. Qed.
  Theorem made_describes d fill shapes t :
    made d fill shapes = Ok t <-> describes d (v_of_scl N fill) shapes t.
  Proof.
    unfold made. revert t. induction shapes as [x|n cs IH] using tree_ind'; intros t.
    - cbn [collapse]. rewrite tree_mapM_leaf. cbn [make_leaf]. split.
      + intros (y & Hy & _). discriminate.
      + inversion 1.
    - destruct (is_int_list_dec n cs) as [[zs E]|Hn].
      + rewrite E, collapse_list, tree_mapM_leaf. cbn [make_leaf]. split.
        * intros (y & Hy & ->). apply bind_ok in Hy as (sh & Hsh & [= <-]).
          apply to_shape_ok in Hsh as [F ->]. rewrite a_full_eq. now constructor.
        * intros D. apply describes_inv in D as [(zs' & E1 & F & ->)|(n' & cs' & ts & E1 & _ & Hn & _)].
          -- apply int_list_inj in E1 as <-.
             exists (a_full (shape_of zs) (v_of_scl N fill) d). split; [|reflexivity].
             rewrite (proj2 (to_shape_ok zs _) (conj F eq_refl)). reflexivity.
          -- exfalso. now apply (Hn zs).
      + rewrite (collapse_node n cs Hn), tree_mapM_nodes. split.
        * intros (ts & -> & F). constructor; [assumption|].
          clear Hn. revert ts F. induction cs as [|c cs IHc]; intros ts F; inversion F; subst; constructor.
          -- inversion IH; subst. now apply (Forall_inv IH).
          -- inversion IH; subst. now apply IHc.
        * intros D. apply describes_inv in D as [(zs' & E1 & _)|(n' & cs' & ts & [= <- <-] & -> & _ & F)].
          { exfalso. now apply (Hn zs'). }
          exists ts. split; [reflexivity|]. clear Hn.
          revert ts F. induction cs as [|c cs IHc]; intros ts F; inversion F; subst; constructor.
          -- now apply (Forall_inv IH).
          -- inversion IH; subst. now apply IHc.
  Qed.
  Lemma define_by_shape_made (s : st) name shapes d fill :
    define_by_shape s name shapes d fill = (t <- made d fill shapes ;; define s name t).
  Proof.
    unfold define_by_shape, made, tree_mapM. destruct (mapM _ _) as [ls|e] eqn:E; cbn [bind]; reflexivity.
  Qed.
  Theorem define_by_shape_ok_iff (s s' : st) name shapes d fill :
    define_by_shape s name shapes d fill = Ok s' <->
    exists t, describes d (v_of_scl N fill) shapes t /\ define_directly s name t = Ok s'.
  Proof.
    rewrite define_by_shape_made. split.
    - intros H. apply bind_ok in H as (t & Ht & H). exists t. split; [now apply made_describes|exact H].
    - intros (t & Ht & H). apply made_describes in Ht. rewrite Ht. exact H.
  Qed.
  Theorem describes_fun d fill shapes (t1 t2 : tr) :
    describes d fill shapes t1 -> describes d fill shapes t2 -> t1 = t2.
  Proof.
    intros H. revert t2. revert shapes t1 H. fix IH 3. intros shapes t1 [zs F|n cs ts Hn F] t2 H2.
    - apply describes_inv in H2 as [(zs' & E & _ & ->)|(n' & cs' & ts' & E & _ & Hn' & _)].
      + now apply int_list_inj in E as <-.
      + exfalso. now apply (Hn' zs).
    - apply describes_inv in H2 as [(zs' & E & _ & ->)|(n' & cs' & ts' & [= <- <-] & -> & _ & F')].
      + exfalso. now apply (Hn zs').
      + f_equal. clear Hn. revert ts' F'. induction F as [|c t cs ts Hc Hcs IHF]; intros ts' F'; inversion F'; subst.
        * reflexivity.
        * f_equal; [eapply IH; eassumption|now apply IHF].
  Qed.
  Lemma describes_awf d fill shapes (t : tr) : describes d fill shapes t ->
    Forall (fun a => awf a /\ a_dt a = d /\ Forall (eq fill) (a_data a)) (leaves t).
  Proof.
    revert shapes t. fix IH 3. intros shapes t [zs F|n cs ts Hn F].
    - cbn [leaves]. constructor; [|constructor]. repeat split.
      + unfold awf, twf. cbn. now rewrite repeat_length.
      + cbn. apply Forall_forall. intros x Hx. apply repeat_spec in Hx. now subst.
    - cbn [leaves]. clear Hn. induction F as [|c0 t0 cs ts Hc _ IHF]; cbn [flat_map]; [constructor|].
      apply Forall_app. split; [eapply IH; eassumption|exact IHF].
  Qed.
  (** errors of a shape definition *)
  Theorem define_by_shape_err (s : st) name shapes d fill e :
    define_by_shape s name shapes d fill = Err e ->
    (e = ValueError /\ In None (leaves (collapse shapes))) \/
    (e = JaxError /\ exists zs, In (Some zs) (leaves (collapse shapes)) /\ ~ Forall (fun z => 0 <= z)%Z zs) \/
    (exists t, describes d (v_of_scl N fill) shapes t /\ define_directly s name t = Err e).
  Proof.
    rewrite define_by_shape_made. intros H. destruct (made d fill shapes) as [t|e'] eqn:E; cbn [bind] in H.
    - right; right. exists t. split; [now apply made_describes|exact H].
    - injection H as ->. unfold made, tree_mapM in E.
      destruct (mapM (make_leaf d fill) (leaves (collapse shapes))) as [ls|e'] eqn:Em; cbn [bind] in E.
      + destruct (unflatten_ok (structure (collapse shapes)) ls) as (t & Ht & _).
        { rewrite length_leaves_structure. now apply mapM_ok_length in Em. }
        congruence.
      + injection E as ->. apply mapM_err in Em as (x & Hx & Ex). destruct x as [zs|]; cbn [make_leaf] in Ex.
        * right; left. destruct (to_shape zs) as [sh|e'] eqn:Es; [discriminate|]. cbn in Ex. injection Ex as ->.
          apply to_shape_err in Es as [-> Hz]. split; [reflexivity|]. eauto.
        * left. injection Ex as <-. auto.
  Qed.

  (** ** Deletion *)
  Definition removed (s : st) (name : string) : st :=
    mkState (epsilon s) (iterations s) (residuals s) (probabilities s)
      (ddel name (defaults s)) (ddel name (accumulators s)) (ddel name (updates s))
      (depression_constant s) (error_mode s).
  Theorem delete_ok_iff (s s' : st) name :
    delete_definition s name = Ok s' <->
    dmem name (defaults s) = true /\ dmem name (accumulators s) = true /\ dmem name (updates s) = true /\
    s' = removed s name.
  Proof.
    unfold delete_definition, dpop. destruct (dmem name (defaults s)) eqn:E1; cbn [bind].
    2:{ split; [discriminate|]. intros (X & _). discriminate. }
    destruct (dmem name (accumulators s)) eqn:E2; cbn [bind].
    2:{ split; [discriminate|]. intros (_ & X & _). discriminate. }
    destruct (dmem name (updates s)) eqn:E3; cbn [bind].
    2:{ split; [discriminate|]. intros (_ & _ & X & _). discriminate. }
    split; [intros [= <-]; auto|intros (_ & _ & _ & ->); reflexivity].
  Qed.
  Theorem delete_err (s : st) name e : delete_definition s name = Err e -> e = KeyError.
  Proof.
    unfold delete_definition, dpop. destruct (dmem name (defaults s)); cbn [bind]; [|congruence].
    destruct (dmem name (accumulators s)); cbn [bind]; [|congruence].
    destruct (dmem name (updates s)); cbn [bind]; [|congruence]. discriminate.
  Qed.

  (** ** Sequences *)
  Theorem new_builder_wf m b cd eps dep s :
    new_builder_with (N := N) (Some m) b cd eps dep = Ok s -> wf s /\ fresh s.
  Proof.
    intros H. apply new_builder_with_ok in H as (Hf & _ & _ & ->).
    assert (Z : forall sh, Forall (eq (v_zero N)) (repeat (v_zero N) (size sh))).
    { intros sh. apply Forall_forall. intros x Hx. apply repeat_spec in Hx. now subst. }
    split.
    - constructor; cbn; try (apply twf_full); auto; try (now constructor); try tauto; try discriminate.
    - repeat split; cbn; auto; discriminate.
  Qed.
  Lemma alike_refl (t : tr) : alike t t. Proof. split; reflexivity. Qed.
  Lemma defined_wf (s : st) name t : wf s -> fresh s -> Forall awf (leaves t) -> definition_ok s t ->
    wf (defined s name t) /\ fresh (defined s name t).
  Proof.
    intros W (F1 & F2 & F3 & F4 & F5) Ha Hd. split.
    - destruct W. constructor; cbn [defined epsilon iterations residuals probabilities defaults accumulators updates depression_constant error_mode]; auto using NoDup_dset.
      + intros k. rewrite !In_dkeys_dset. now rewrite wf_keys_d.
      + intros k. rewrite !In_dkeys_dset. now rewrite wf_keys_u.
      + intros k u. rewrite dget_dset. destruct (String.eqb k name); [|now apply wf_acc].
        intros [= <-]. unfold definition_ok in Hd. rewrite Forall_forall in *. intros a Hin.
        destruct (Hd a Hin) as [X Y]. split; [now apply Ha|split; [exact X|exact Y]].
      + intros k u d. rewrite !dget_dset. destruct (String.eqb k name); [|now apply wf_def].
        intros [= <-] [= <-]. split; [apply alike_refl|assumption].
    - repeat split; cbn; auto.
      + intros k. rewrite !dget_dset. destruct (String.eqb k name); auto.
      + intros k u. rewrite dget_dset. destruct (String.eqb k name); [congruence|]. now apply F5.
  Qed.
  Lemma removed_wf (s : st) name : wf s -> fresh s -> wf (removed s name) /\ fresh (removed s name).
  Proof.
    intros W (F1 & F2 & F3 & F4 & F5). destruct W.
    assert (K : forall V (d : dict V), NoDup (dkeys d) -> forall k, In k (dkeys (ddel name d)) <-> In k (dkeys d) /\ k <> name).
    { intros V d Hd k. rewrite !dget_keys. setoid_rewrite dget_ddel; [|assumption].
      destruct (String.eqb_spec k name); split.
      - intros [v Hv]. discriminate.
      - intros [_ X]. contradiction.
      - eauto.
      - tauto. }
    split.
    - constructor; cbn [removed epsilon iterations residuals probabilities defaults accumulators updates depression_constant error_mode]; auto using NoDup_ddel.
      + intros k. rewrite !K by assumption. now rewrite wf_keys_d.
      + intros k. rewrite !K by assumption. now rewrite wf_keys_u.
      + intros k u. rewrite dget_ddel by assumption. destruct (String.eqb k name); [discriminate|]. apply wf_acc.
      + intros k u d. rewrite !dget_ddel by assumption. destruct (String.eqb k name); [discriminate|]. apply wf_def.
    - repeat split; cbn; auto.
      + intros k. rewrite !dget_ddel by assumption. destruct (String.eqb k name); auto.
      + intros k u. rewrite dget_ddel by assumption. destruct (String.eqb k name); [discriminate|]. apply F5.
  Qed.
  Lemma bafter_cases (s : st) c : bcall_wf c ->
    bafter s c = s \/
    (exists name t, Forall awf (leaves t) /\ definition_ok s t /\ bafter s c = defined s name t) \/
    (exists name, bafter s c = removed s name).
  Proof.
    intros Hc. unfold bafter. destruct (apply_bcall s c) as [s'|e] eqn:E; [right|now left].
    destruct c as [name t|name sh d fill|name]; cbn [apply_bcall bcall_wf] in *.
    - left. apply define_ok_iff in E as [Hd ->]. eauto.
    - left. apply define_by_shape_ok_iff in E as (t & Ht & E). apply define_ok_iff in E as [Hd ->].
      exists name, t. repeat split; auto. apply describes_awf in Ht. eapply Forall_impl; [|exact Ht]. cbn. tauto.
    - right. apply delete_ok_iff in E as (_ & _ & _ & ->). eauto.
  Qed.
  Theorem brun_wf (s : st) cs : wf s -> fresh s -> Forall bcall_wf cs ->
    wf (brun s cs) /\ fresh (brun s cs) /\ epsilon (brun s cs) = epsilon s /\
    depression_constant (brun s cs) = depression_constant s /\ error_mode (brun s cs) = error_mode s /\
    probabilities (brun s cs) = probabilities s /\ residuals (brun s cs) = residuals s /\
    iterations (brun s cs) = iterations s.
  Proof.
    revert s. induction cs as [|c cs IH]; intros s W F Hc; [cbn; auto 10|].
    inversion Hc; subst. cbn [brun fold_left]. fold (brun (bafter s c) cs).
    destruct (bafter_cases s c H1) as [E|[(name & t & Ha & Hd & E)|(name & E)]]; rewrite E.
    - now apply IH.
    - destruct (defined_wf s name t W F Ha Hd) as [W' F']. apply (IH (defined s name t)); assumption.
    - destruct (removed_wf s name W F) as [W' F']. apply (IH (removed s name)); assumption.
  Qed.
End Builder.
