(** * Properties of the builder (C22 - C27). Vocabulary: BuilderSpec.v. *)
From Coq Require Import QArith Qcanon.
From Verif Require Import Base PyTree Tensor Num Utils States Controller Builder Wf Spec History ElementSpec BuilderSpec.
From Verif Require Import BaseFacts PyTreeFacts ControllerFacts IterateFacts ResetFacts HistoryFacts
  QcFacts BuilderFacts Samples.
Close Scope Qc_scope. Close Scope Q_scope. Open Scope string_scope. Open Scope list_scope. Open Scope nat_scope.

Definition raised {A} (r : res A) : option exn := match r with Err e => Some e | Ok _ => None end.

(** ** C22 *)
(** No call of [new_builder] ever returns; with valid arguments it raises TypeError. *)
Theorem C22_refuted {N} (b : batch_arg) (cd : option dtype) (eps dep : scl N) :
  (forall s : state N, new_builder b cd eps dep <> Ok s) /\
  (is_floating (core cd) = true -> s_leb N (s_one N) eps = false -> s_leb N eps (s_zero N) = false ->
   Forall (fun z => 0 <= z)%Z (batch_dims b) -> new_builder b cd eps dep = Err TypeError).
Proof.
  split; [intros s; apply new_builder_never|]. intros Hf H1 H2 Hz. apply new_builder_type_error; auto. split; assumption.
Qed.
Print Assumptions C22_refuted.
(** Were [error_mode] passed on to the constructor (with any value [m]), the builder would be the
    documented one. *)
Theorem C22_partial {N} m (b : batch_arg) (cd : option dtype) (eps dep : scl N) :
  is_floating (core cd) = true -> s_leb N (s_one N) eps = false -> s_leb N eps (s_zero N) = false ->
  Forall (fun z => 0 <= z)%Z (batch_dims b) ->
  exists s : state N, new_builder_with (Some m) b cd eps dep = Ok s /\
    accumulators s = [] /\ defaults s = [] /\ updates s = [] /\
    epsilon s = eps /\ depression_constant s = dep /\ error_mode s = m /\
    forall a, In a [probabilities s; residuals s; iterations s] ->
      a_shape a = map Z.to_nat (batch_dims b) /\ a_dt a = core cd /\ awf a /\
      Forall (eq (v_zero N)) (a_data a).
Proof.
  intros Hf H1 H2 Hz. eexists. split.
  - apply new_builder_with_ok. split; [exact Hf|]. split; [split; [exact H1|exact H2]|]. split; [exact Hz|reflexivity].
  - cbn [empty_state accumulators defaults updates epsilon depression_constant error_mode probabilities residuals iterations].
    repeat (split; [reflexivity|]).
    assert (X : let a := a_full (N := N) (shape_of (batch_dims b)) (v_zero N) (core cd) in
      a_shape a = map Z.to_nat (batch_dims b) /\ a_dt a = core cd /\ awf a /\ Forall (eq (v_zero N)) (a_data a)).
    { cbn. split; [reflexivity|]. split; [reflexivity|]. split.
      - unfold awf, twf. cbn. apply repeat_length.
      - apply Forall_forall. intros x Hx. apply repeat_spec in Hx. now subst. }
    intros a [<-|[<-|[<-|[]]]]; exact X.
Qed.
Print Assumptions C22_partial.
Example C22_case : is_floating (core (Some DF32)) = true /\ s_leb QcNum (s_one QcNum) (q 1 10) = false /\
  s_leb QcNum (q 1 10) (s_zero QcNum) = false /\ Forall (fun z => 0 <= z)%Z (batch_dims (BList [3; 4]%Z)) /\
  raised (new_builder (N := QcNum) (BList [3; 4]%Z) (Some DF32) (q 1 10) (q 1 1)) = Some TypeError.
Proof. repeat split; repeat constructor; vm_compute; congruence. Qed.

(** ** C23 *)
Theorem C23_new_builder_rejects (b : batch_arg) (cd : option dtype) (eps dep : Qc) :
  new_builder (N := QcNum) b cd eps dep = Err ValueError <->
  (exists d, cd = Some d /\ is_floating d = false) \/ ~ (0 < eps /\ eps < 1)%Qc.
Proof.
  unfold new_builder. rewrite new_builder_value_error. unfold eps_sane.
  cbn [s_leb s_one s_zero QcNum].
  assert (E : (Qcleb 1 eps = false /\ Qcleb eps 0 = false) <-> (0 < eps /\ eps < 1)%Qc).
  { unfold Qcleb. destruct (Qclt_le_dec eps 1) as [A|A]; destruct (Qclt_le_dec 0 eps) as [B|B]; split; intros [X Y]; auto; try discriminate.
    - exfalso. revert B X. qc.
    - exfalso. revert A Y. qc.
    - exfalso. revert A Y. qc. }
  rewrite E. split; (intros [H|H]; [left|right; exact H]).
  - destruct cd as [d|]; [exists d; auto|discriminate].
  - destruct H as (d & -> & H). exact H.
Qed.
Print Assumptions C23_new_builder_rejects.
(** for every arithmetic, in particular IEEE: the comparisons are the ones the code makes *)
Theorem C23_new_builder_rejects_any_arithmetic {N} (b : batch_arg) (cd : option dtype) (eps dep : scl N) :
  new_builder b cd eps dep = Err ValueError <->
  is_floating (core cd) = false \/ s_leb N (s_one N) eps = true \/ s_leb N eps (s_zero N) = true.
Proof.
  unfold new_builder. rewrite new_builder_value_error. unfold eps_sane.
  destruct (s_leb N (s_one N) eps), (s_leb N eps (s_zero N)); intuition congruence.
Qed.
Print Assumptions C23_new_builder_rejects_any_arithmetic.
Example C23_case :
  raised (new_builder (N := QcNum) (BInt 3) (Some DInt32) (q 1 10) (q 1 1)) = Some ValueError /\
  raised (new_builder (N := QcNum) (BInt 3) (Some DF32) (q 1 1) (q 1 1)) = Some ValueError /\
  raised (new_builder (N := QcNum) (BInt 3) None (q 0 1) (q 1 1)) = Some ValueError /\
  raised (new_builder (N := QcNum) (BInt 3) None (q 1 2) (q 1 1)) = Some TypeError.
Proof. repeat split; vm_compute; reflexivity. Qed.

(** ** C24 *)
Theorem C24_definitions_checked {N} (s : state N) name t :
  (is_ok (define_directly s name t) = true <->
   Forall (fun a => is_floating (a_dt a) = true /\ exists R, a_shape a = batch_shape s ++ R) (leaves t)) /\
  (forall e, define_directly s name t = Err e ->
     (e = TypeError /\ exists a, In a (leaves t) /\ is_floating (a_dt a) = false) \/
     (e = ValueError /\ exists a, In a (leaves t) /\ ~ exists R, a_shape a = batch_shape s ++ R)).
Proof.
  split.
  - rewrite is_ok_true. split.
    + intros [s' H]. apply define_ok_iff in H as [H _]. exact H.
    + intros H. exists (defined s name t). apply define_ok_iff. split; [exact H|reflexivity].
  - intros e H. destruct (define_char s name t) as [[_ X]|[(a & A & B & X)|(a & A & _ & B & X)]];
      change (define s name t) with (define_directly s name t) in X.
    + congruence.
    + left. split; [congruence|]. eauto.
    + right. split; [congruence|]. eauto.
Qed.
Print Assumptions C24_definitions_checked.
Example C24_case : is_ok (define_directly (core2 (q 1 1)) "y" t_y) = true /\
  raised (define_directly (core2 (q 1 1)) "x" (Leaf (farr DInt32 [2] [q 0 1; q 0 1]))) = Some TypeError /\
  raised (define_directly (core2 (q 1 1)) "x" (Leaf (arr [3] [q 0 1; q 0 1; q 0 1]))) = Some ValueError /\
  raised (define_directly (core2 (q 1 1)) "x" (Leaf (arr [] [q 0 1]))) = Some ValueError.
Proof. repeat split; vm_compute; reflexivity. Qed.

(** ** C25 *)
Theorem C25_definition_local {N} (s s' : state N) name t :
  define_directly s name t = Ok s' ->
  dget name (defaults s') = Some t /\ dget name (accumulators s') = Some t /\ dget name (updates s') = Some tnone /\
  (forall k, k <> name -> dget k (defaults s') = dget k (defaults s) /\
     dget k (accumulators s') = dget k (accumulators s) /\ dget k (updates s') = dget k (updates s)) /\
  probabilities s' = probabilities s /\ residuals s' = residuals s /\ iterations s' = iterations s /\
  epsilon s' = epsilon s /\ depression_constant s' = depression_constant s /\ error_mode s' = error_mode s.
Proof.
  intros H. apply define_ok_iff in H as [_ ->]. cbn. rewrite !dget_dset_eq. repeat (split; [reflexivity|]).
  split; [|repeat split]. intros k Hk. now rewrite !dget_dset_neq.
Qed.
Print Assumptions C25_definition_local.
(** and the private removal of a definition *)
Theorem C25_deletion_local {N} (s : state N) name :
  NoDup (dkeys (defaults s)) -> NoDup (dkeys (accumulators s)) -> NoDup (dkeys (updates s)) ->
  (forall s', delete_definition s name = Ok s' ->
     dget name (defaults s') = None /\ dget name (accumulators s') = None /\ dget name (updates s') = None /\
     (forall k, k <> name -> dget k (defaults s') = dget k (defaults s) /\
        dget k (accumulators s') = dget k (accumulators s) /\ dget k (updates s') = dget k (updates s)) /\
     probabilities s' = probabilities s /\ residuals s' = residuals s /\ iterations s' = iterations s /\
     epsilon s' = epsilon s /\ depression_constant s' = depression_constant s /\ error_mode s' = error_mode s) /\
  (forall e, delete_definition s name = Err e -> e = KeyError) /\
  (is_ok (delete_definition s name) = true <->
   In name (dkeys (defaults s)) /\ In name (dkeys (accumulators s)) /\ In name (dkeys (updates s))).
Proof.
  intros N1 N2 N3. split; [|split].
  - intros s' H. apply delete_ok_iff in H as (_ & _ & _ & ->). cbn. rewrite !dget_ddel by assumption.
    rewrite String.eqb_refl. repeat (split; [reflexivity|]). split; [|repeat split].
    intros k Hk. rewrite !dget_ddel by assumption. now rewrite (proj2 (String.eqb_neq k name) Hk).
  - exact (fun e => delete_err s name e).
  - rewrite is_ok_true, <- !dmem_In. split.
    + intros [s' H]. apply delete_ok_iff in H. tauto.
    + intros (A & B & C). exists (removed s name). apply delete_ok_iff. tauto.
Qed.
Print Assumptions C25_deletion_local.
Example C25_case : is_ok (define_directly ctl1 "y" t_y) = true /\ is_ok (define_directly ctl1 "x" t_y) = true /\
  is_ok (delete_definition ctl2 "x") = true /\ raised (delete_definition ctl1 "y") = Some KeyError.
Proof. repeat split; vm_compute; reflexivity. Qed.

(** ** C26 *)
Theorem C26_definition_by_shape {N} (s : state N) name shapes d fill :
  (** it is the direct definition of the described pytree *)
  (forall s', define_by_shape s name shapes d fill = Ok s' <->
     exists t, describes d (v_of_scl N fill) shapes t /\ define_directly s name t = Ok s') /\
  (** there is at most one such pytree *)
  (forall t1 t2 : tree (array N), describes d (v_of_scl N fill) shapes t1 ->
     describes d (v_of_scl N fill) shapes t2 -> t1 = t2).
Proof.
  split; [intros s'; apply define_by_shape_ok_iff|]. intros t1 t2. apply describes_fun.
Qed.
Print Assumptions C26_definition_by_shape.
(** The positions of a shapes tree: lists of ints, and anything else that is not a container. *)
Inductive position : tree sleaf -> option (list Z) -> Prop :=
| P_ints zs : position (int_list zs) (Some zs)
| P_other x : position (Leaf x) None
| P_child n cs c o : (forall zs, Node n cs <> int_list zs) -> In c cs -> position c o -> position (Node n cs) o.
Lemma position_collapse sh o : In o (leaves (collapse sh)) <-> position sh o.
Proof.
  induction sh as [x|n cs IH] using tree_ind'.
  - cbn. split; [intros [<-|[]]; constructor|]. inversion 1; subst; auto.
  - destruct (is_int_list_dec n cs) as [[zs E]|Hn].
    + rewrite E, collapse_list. cbn. split; [intros [<-|[]]; constructor|].
      intros H. left. inversion H as [zs' E1|x E1|n' cs' c o' Hn]; subst.
      * unfold int_list in *. f_equal. apply int_list_inj. unfold int_list. congruence.
      * exfalso. now apply (Hn zs).
    + rewrite (collapse_node n cs Hn). cbn [leaves]. rewrite in_flat_map. split.
      * intros (y & Hy & Ho). apply in_map_iff in Hy as (c & <- & Hc). econstructor; [exact Hn|exact Hc|].
        rewrite Forall_forall in IH. now apply IH.
      * intros H. inversion H as [zs' E1|x E1|n' cs' c o' _ Hc Hp]; subst; [exfalso; now apply (Hn zs')|].
        exists (collapse c). split; [now apply in_map|]. rewrite Forall_forall in IH. now apply IH.
Qed.
Theorem C26_bad_shapes {N} (s : state N) name shapes d fill :
  (** some position is not a list of ints: an error, and unless it is about a negative dimension
      it is ValueError *)
  (position shapes None -> forall s', define_by_shape s name shapes d fill <> Ok s') /\
  (forall e, define_by_shape s name shapes d fill = Err e ->
     (e = ValueError /\ position shapes None) \/
     (e = JaxError /\ exists zs, position shapes (Some zs) /\ ~ Forall (fun z => 0 <= z)%Z zs) \/
     (exists t, describes d (v_of_scl N fill) shapes t /\ define_directly s name t = Err e)) /\
  ((forall o, position shapes o -> exists zs, o = Some zs /\ Forall (fun z => 0 <= z)%Z zs) <->
   exists t : tree (array N), describes d (v_of_scl N fill) shapes t).
Proof.
  assert (K : forall t : tree (array N), describes d (v_of_scl N fill) shapes t ->
     forall o, position shapes o -> exists zs, o = Some zs /\ Forall (fun z => 0 <= z)%Z zs).
  { intros t D. revert shapes t D. fix IH 3. intros shapes t [zs F|n cs ts Hn F] o Ho.
    - inversion Ho as [zs' E1|x E1|n' cs' c o' Hn' E1]; subst.
      + exists zs'. split; [reflexivity|]. assert (zs' = zs) by (apply int_list_inj; unfold int_list; congruence). now subst.
      + exfalso. now apply (Hn' zs).
    - inversion Ho as [zs' E1|x E1|n' cs' c o' Hn' Hc Hp]; subst; [exfalso; now apply (Hn zs')|].
      clear Ho Hn Hn'. induction F as [|c0 t0 cs ts D F IHF]; [contradiction|].
      destruct Hc as [->|Hc]; [exact (IH c t0 D o Hp)|now apply IHF]. }
  split; [|split].
  - intros Hp s' H. apply define_by_shape_ok_iff in H as (t & D & _). destruct (K t D None Hp) as (zs & E & _). discriminate.
  - intros e H. apply define_by_shape_err in H as [[A B]|[[A (zs & B & C)]|H]].
    + left. split; [exact A|now apply position_collapse].
    + right; left. split; [exact A|]. exists zs. split; [now apply position_collapse|exact C].
    + right; right. exact H.
  - split; [|intros [t D]; exact (K t D)].
    intros H. destruct (tree_mapM_total (make_leaf d fill) (collapse shapes)) as [t Ht].
    + intros x Hx. apply position_collapse in Hx. destruct (H x Hx) as (zs & -> & F). cbn [make_leaf].
      rewrite (proj2 (to_shape_ok zs _) (conj F eq_refl)). cbn [bind]. eauto.
    + exists t. now apply made_describes.
Qed.
Print Assumptions C26_bad_shapes.
Definition shapes_y : tree sleaf :=
  Node (NDict ["a"; "b"]) [int_list [2]%Z; Node NTuple [int_list [2; 3]%Z; tnone]].
Example C26_case : is_ok (define_by_shape (N := QcNum) (core2 (q 1 1)) "y" shapes_y DF32 (q 1 2)) = true /\
  position shapes_y (Some [2; 3]%Z) /\
  raised (define_by_shape (N := QcNum) (core2 (q 1 1)) "y" (Node NTuple [Leaf (SInt 2)]) DF32 (q 1 2)) = Some ValueError /\
  raised (define_by_shape (N := QcNum) (core2 (q 1 1)) "y" (int_list [-2]%Z) DF32 (q 1 2)) = Some JaxError.
Proof.
  split; [vm_compute; reflexivity|]. split; [|split; vm_compute; reflexivity].
  apply position_collapse. cbn. auto.
Qed.

(** ** C27 *)
Theorem C27_builders_make_well_formed_controllers {N} m b cd (eps dep : scl N) s0 cs :
  new_builder_with (Some m) b cd eps dep = Ok s0 -> Forall bcall_wf cs ->
  let s := build (brun s0 cs) in
  wf s /\ fresh s /\ wf_pending s /\ idle s /\
  epsilon s = eps /\ depression_constant s = dep /\ batch_shape s = map Z.to_nat (batch_dims b) /\
  (forall k, In k (dkeys (accumulators s)) <-> In k (dkeys (defaults s))) /\
  (forall k, In k (dkeys (accumulators s)) <-> In k (dkeys (updates s))) /\
  (forall k t, dget k (accumulators s) = Some t ->
     Forall (fun a => is_floating (a_dt a) = true /\ exists R, a_shape a = batch_shape s ++ R) (leaves t)).
Proof.
  intros H Hc s. destruct (new_builder_wf _ _ _ _ _ _ H) as [W F].
  destruct (brun_wf s0 cs W F Hc) as (A & B & C & D & _ & E & _).
  apply new_builder_with_ok in H as (_ & _ & _ & ->). unfold s, build.
  split; [exact A|]. split; [exact B|]. split; [exact (fresh_wf_pending _ B)|].
  split; [intros k u Hu; destruct B as (_ & _ & _ & _ & B); now rewrite (B k u Hu)|].
  split; [exact C|]. split; [exact D|]. split; [unfold batch_shape; rewrite E; reflexivity|].
  split; [intros k; now rewrite (wf_keys_d _ A)|]. split; [intros k; now rewrite (wf_keys_u _ A)|].
  intros k t Ht. eapply Forall_impl; [|exact (wf_acc _ A k t Ht)]. intros a (_ & X & Y). auto.
Qed.
Print Assumptions C27_builders_make_well_formed_controllers.
Example C27_case : is_ok (new_builder_with (N := QcNum) (Some (Some "standard")) (BInt 2) (Some DF32) (q 1 10) (q 1 1)) = true /\
  Forall bcall_wf defs2 /\ dkeys (accumulators (build (brun (core2 (q 1 1)) defs2))) = ["x"; "y"].
Proof. split; [vm_compute; reflexivity|]. split; [exact defs2_wf|]. vm_compute. reflexivity. Qed.
