(** * C92: the contract checks name the rule that was broken; C93: texts about viewers, operators and pytrees *)
From Coq Require Import Ascii Lia QArith Qcanon.
From Verif Require Import Base BaseFacts PyTree PyTreeFacts Tensor TensorFacts Num Utils UtilsFacts States Controller ControllerFacts Builder Viewer ViewerSpec ViewerFacts Editor Checkify Layers Wf UtilsSpec LayerSpec StateSpec History HistoryFacts.
From Verif Require Import Text TextSpec TextFacts PyStr Messages MessagesSpec MessagesFacts MessagesFacts4 Messages2 Messages2Spec Messages2Facts Messages2Facts2 QcFacts StateFacts LayerFacts LayerFacts2 LayerFacts3 Samples PropsLayers.
Close Scope Qc_scope. Close Scope Q_scope. Open Scope string_scope. Open Scope list_scope. Open Scope nat_scope.

(** ** C92 *)
Theorem C92_same_outcomes {N} (str_controller : string) (str_class : tree (array N) -> string) check (l : layer N) :
  (forall init dep, without_text (m_make_controller str_controller str_class check l init dep) = wrapped_make_controller check l init dep) /\
  (forall c u, without_text (m_run_iteration str_controller str_class check l c u) = wrapped_run_iteration check l c u).
Proof. split; intros; [apply make_without|apply run_without]. Qed.
Print Assumptions C92_same_outcomes.

(** A controller that [make_controller] should not have returned. *)
Theorem C92_make_controller {N} (str_controller : string) (str_class : tree (array N) -> string) (l : layer N) init dep m :
  plain_classes str_controller str_class -> l_make_controller l init dep = Ok m ->
  (forall m', m_make_controller str_controller str_class true l init dep = Gives m' <-> m' = m /\ forall x, ~ made_breach str_class m x) /\
  (forall e text, m_make_controller str_controller str_class true l init dep = Throws e text <->
     exists x, made_breach str_class m x /\ e = breach_exception x /\ text = Some (breach_message str_controller making x)).
Proof.
  intros P H. unfold m_make_controller. rewrite H. cbn [silent obind]. fold making. rewrite (made_says str_controller str_class m P).
  assert (K : forall x, made_breach str_class m x <-> course_made str_class m = Some x) by (intros x; symmetry; apply course_made_iff).
  destruct (course_made str_class m) as [x|]; cbn [accusation accuse obind].
  - split.
    + intros m'. split; [discriminate|]. intros [_ X]. exfalso. apply (X x). now apply K.
    + intros e text. split; [intros [= <- <-]; exists x; split; [now apply K|auto]|]. intros (y & Y & -> & ->). apply K in Y as [= <-]. reflexivity.
  - split.
    + intros m'. split; [intros [= <-]; split; [reflexivity|]; intros x Y; apply K in Y; discriminate|]. intros [-> _]. reflexivity.
    + intros e text. split; [discriminate|]. intros (y & Y & _). apply K in Y. discriminate.
Qed.
Print Assumptions C92_make_controller.

(** What [run_iteration] is told about, exactly: the form of its result, and whether the controller it was given, not the one it
    returned, has updates that wait. *)
Theorem C92_run_iteration {N} (str_controller : string) (str_class : tree (array N) -> string) (l : layer N) c u r :
  plain_classes str_controller str_class -> l_run_iteration l c u = Ok r ->
  let told x := form_breach str_class r x \/ (exists c' y, r = RTuple [ICtrl c'; y]) /\ uncommitted c x in
  (forall r', m_run_iteration str_controller str_class true l c u = Gives r' <-> r' = r /\ forall x, ~ told x) /\
  (forall e text, m_run_iteration str_controller str_class true l c u = Throws e text <->
     exists x, told x /\ e = breach_exception x /\ text = Some (breach_message str_controller iterating x)).
Proof.
  intros P H told. unfold m_run_iteration. rewrite H. cbn [silent obind]. rewrite (update_says str_controller str_class c r P).
  assert (K : forall x, told x <-> course_update str_class c r = Some x) by (intros x; symmetry; apply course_update_iff).
  destruct (course_update str_class c r) as [x|]; cbn [accusation accuse obind].
  - split.
    + intros r'. split; [discriminate|]. intros [_ X]. exfalso. apply (X x). now apply K.
    + intros e text. split; [intros [= <- <-]; exists x; split; [now apply K|auto]|]. intros (y & Y & -> & ->). apply K in Y as [= <-]. reflexivity.
  - split.
    + intros r'. split; [intros [= <-]; split; [reflexivity|]; intros x Y; apply K in Y; discriminate|]. intros [-> _]. reflexivity.
    + intros e text. split; [discriminate|]. intros (y & Y & _). apply K in Y. discriminate.
Qed.
Print Assumptions C92_run_iteration.

(** Hence a layer that commits all it was given is told that it never committed, and one that leaves updates waiting is told nothing. *)
Theorem C92_refuted {N} (str_controller : string) (str_class : tree (array N) -> string) (l : layer N) c u c' y :
  plain_classes str_controller str_class -> l_run_iteration l c u = Ok (RTuple [ICtrl c'; y]) ->
  (all_waiting c -> m_run_iteration str_controller str_class true l c u = Throws RuntimeError (Some (breach_message str_controller iterating NeverCommitted))) /\
  (proper c -> clean c -> m_run_iteration str_controller str_class true l c u = Gives (RTuple [ICtrl c'; y])) /\
  (proper c' -> clean c' -> forall x, ~ uncommitted c' x).
Proof.
  intros P H.
  assert (X : forall d : state N, proper d -> clean d -> forall x, ~ uncommitted d x).
  { intros d Pd (A & U & I) x. assert (V : forall k v, In (k, v) (updates d) -> is_none v = true).
    { intros k v J. apply (I k v). apply dget_nodup; [apply Pd|exact J]. }
    destruct x; cbn; auto.
    - intros W. destruct (updates d) as [|[k v] r] eqn:E; [now apply U|]. assert (J : In (k, v) (updates d)) by (rewrite E; now left).
      rewrite E in J. pose proof (V k v J). specialize (W k v). rewrite E in W. specialize (W J). congruence.
    - intros [(k & v & J & Nv) _]. specialize (V k v J). congruence. }
  destruct (C92_run_iteration str_controller str_class l c u _ P H) as [G T]. split; [|split].
  - intros W. apply T. exists NeverCommitted. split; [right; split; [eauto|exact W]|auto].
  - intros Pc C. apply G. split; [reflexivity|]. intros x [F|[_ F]]; [|now apply (X c Pc C x)].
    destruct x; cbn in F; try contradiction.
    + destruct F as (t & z & F & _). discriminate.
    + destruct F as (t & F & _). discriminate.
    + destruct F as (k & [= <-] & -> & F). now apply F.
    + destruct F as (z & F). discriminate.
  - intros Pc C. exact (X c' Pc C).
Qed.
Print Assumptions C92_refuted.
(** Within an execution of the documented kind, where no update waits when an iteration starts, all that is said is true of what was returned. *)
Theorem C92_partial {N} (str_controller : string) (str_class : tree (array N) -> string) (l : layer N) c u r e text :
  plain_classes str_controller str_class -> proper c -> clean c -> l_run_iteration l c u = Ok r ->
  (m_run_iteration str_controller str_class true l c u = Throws e text <->
   exists x, form_breach str_class r x /\ e = breach_exception x /\ text = Some (breach_message str_controller iterating x)).
Proof.
  intros P Pc C H. destruct (C92_run_iteration str_controller str_class l c u r P H) as [_ T]. rewrite T. split.
  - intros (x & [F|[(c' & y & ->) F]] & E); [eauto|]. exfalso. destruct (C92_refuted str_controller str_class l c u c' y P H) as (_ & G & _).
    specialize (G Pc C). assert (Z : m_run_iteration str_controller str_class true l c u = Throws (breach_exception x) (Some (breach_message str_controller iterating x))).
    { apply T. exists x. split; [right; split; [eauto|exact F]|auto]. }
    rewrite G in Z. discriminate.
  - intros (x & F & E). exists x. auto.
Qed.
Print Assumptions C92_partial.
Theorem C92_texts_differ (str_controller : string) w w' x x' :
  (w = making \/ w = iterating) -> (w' = making \/ w' = iterating) ->
  breach_message str_controller w x = breach_message str_controller w' x' -> w = w' /\ x = x'.
Proof. intros H H'. apply breach_tells; [destruct H as [-> | ->]|destruct H' as [-> | ->]]; reflexivity. Qed.
Print Assumptions C92_texts_differ.

Definition classes92 (t : tr) : string := match t with Leaf _ => "<class 'jaxlib.xla_extension.ArrayImpl'>" | Node n _ => str_node (fun _ => "<class 'Pair'>") n end.
Definition controller92 : string := "<class 'src.jax_act.core.controller.ACT_Controller'>".
(** both accumulators of the sample filled; one filled *)
Definition full92 : st := run ctl0 [CCache "x" t_x; CCache "y" t_y].
Definition half92 : st := run ctl0 [CCache "x" t_x].
Definition says {A} (o : outcome A) : option string := match o with Throws _ t => t | Gives _ => None end.
Definition iterate92 (c : st) (r : ret QcNum) := m_run_iteration controller92 classes92 true (lay_ret r) c initU.
Example C92_case : plain_classes controller92 classes92 /\ proper ctl0 /\ clean ctl0 /\ all_waiting full92 /\ some_waiting half92 /\ ~ all_waiting half92 /\
  says (m_make_controller controller92 classes92 true (mkLayer (fun _ _ => Ok (MOther initU)) (fun _ _ => Err TypeError) (fun _ _ => Ok tt)) initU (q 1 1)) =
    Some "An issue occurred while trying to make an act controller using the user layer

    Expected to be given a result of type <class 'src.jax_act.core.controller.ACT_Controller'>. 
    However, we instead got a result of type <class 'jaxlib.xla_extension.ArrayImpl'>
" /\
  says (iterate92 ctl0 (ROther (Node NList []))) =
    Some "An issue occurred while validating the execution of run_iteration

    Expected to see tuple, but instead got type <class 'list'>
" /\
  says (iterate92 ctl0 (RTuple [ICtrl ctl0])) =
    Some "An issue occurred while validating the execution of run_iteration

    Expected tuple collection to have length of two. Instead,
    it had length of 1
" /\
  says (iterate92 ctl0 (RTuple [ICtrl half92; IObj initU])) = None /\
  says (iterate92 full92 (RTuple [ICtrl ctl0; IObj initU])) = Some (breach_message controller92 iterating NeverCommitted) /\
  says (iterate92 half92 (RTuple [ICtrl ctl0; IObj initU])) = Some (breach_message controller92 iterating Incomplete).
Proof.
  split; [split; [reflexivity|intros [x|[] cs]; reflexivity]|]. split; [apply wf_proper, ctl0_wf|].
  split; [apply all_none_clean; [exact ctl0_wf|exact layU_none|exact layU_accs]|].
  split; [apply ready_iff; vm|]. split; [apply cached_iff; vm|]. split; [rewrite <- ready_iff; vm_compute; discriminate|]. repeat split; vm.
Qed.

(** ** C93 *)
Theorem C93_same_outcomes {N} (str_named : string -> string) (str_treedef : treedef -> string) :
  (forall (s : state N) f, without_text (m_transform s f) = transform s f) /\
  (forall (s : state N) d m, without_text (m_mask_data s d m) = mask_data s d m) /\
  (forall (s : state N) mode, without_text (m_edit s mode) = edit_save s mode /\ without_text (m_edit s mode) = edit_controller s mode) /\
  (forall L M (a : tree L) (b : tree M), without_text (m_broadcast str_named str_treedef a b) = broadcast_pytree_shape a b) /\
  (forall (op : array N -> array N -> res (array N)) a b context, without_text (m_execute_binary op a b context) = execute_binary_operator op a b).
Proof.
  split; [apply transform_without|]. split; [apply mask_without|]. split; [apply edit_without2|]. split; [intros; apply broadcast_without|].
  intros. apply binary_without.
Qed.
Print Assumptions C93_same_outcomes.

(** Viewers and editors. *)
Theorem C93_viewers {N} (s : state N) :
  (forall f e text, m_transform s f = Throws e text <->
     (exists x, In x (tensors s) /\ forall y, f x <> Ok y) /\ e = RuntimeError /\ text = Some "An issue occurred in using the provided function") /\
  (forall d mask, d <> DBool -> m_mask_data s d mask = Throws ValueError (Some "Mask was not made up of bool dtypes.")) /\
  (forall mask, shape mask <> a_shape (probabilities s) ->
     m_mask_data s DBool mask = Throws ValueError
       (Some ("Mask of shape " ++ str_shape (shape mask) ++ " does not match batch shape of " ++ str_shape (a_shape (probabilities s)))%string)) /\
  (forall mode e text, m_edit s mode = Throws e text <->
     mode <> "standard" /\ mode <> "silence" /\ e = ValueError /\ text = Some "Error mode must have been within ['standard', 'silence']").
Proof.
  split; [|split; [|split]].
  - intros f e text.
    assert (D : (forall x, In x (tensors s) -> exists y, f x = Ok y) \/ exists x, In x (tensors s) /\ forall y, f x <> Ok y).
    { induction (tensors s) as [|x l IH]; [left; intros x []|]. destruct (f x) as [y|e'] eqn:E.
      - destruct IH as [IH|(z & I & H)]; [|right; exists z; split; [now right|exact H]]. left. intros z [<-|I]; eauto.
      - right. exists x. split; [now left|]. intros y. congruence. }
    assert (T : forall e t, m_transform s f = Throws e t -> e = RuntimeError /\ t = Some "An issue occurred in using the provided function").
    { unfold m_transform. intros e' t. match goal with |- (match ?x with Ok _ => _ | Err _ => _ end) = _ -> _ => destruct x as [[[[[[p q'] r] a] b] c]|] end; [discriminate|].
      intros [= <- <-]. auto. }
    split.
    + intros H. destruct (T _ _ H) as [-> ->]. split; [|auto]. destruct D as [D|D]; [|exact D]. exfalso. apply transform_total in D as [s' D].
      rewrite <- transform_without, H in D. discriminate.
    + intros ((x & I & H) & -> & ->). destruct (m_transform s f) as [s'|e t] eqn:E; [|destruct (T e t eq_refl) as [-> ->]; reflexivity].
      exfalso. assert (E' : transform s f = Ok s') by (rewrite <- transform_without, E; reflexivity). destruct (transform_inv _ _ _ E') as (K & _). destruct (K x I) as [y Y]. now apply (H y).
  - intros d mask H. unfold m_mask_data. destruct d; try reflexivity. now exfalso.
  - intros mask H. unfold m_mask_data. cbn [dtype_eqb complain obind]. destruct (shape_eqb (shape mask) (a_shape (probabilities s))) eqn:E; [|reflexivity].
    apply shape_eqb_eq in E. contradiction.
  - intros mode e text. unfold m_edit, error_modes, m_standard, m_silence. cbn [existsb]. rewrite orb_false_r.
    destruct (String.eqb_spec mode "standard") as [->|H1]; cbn [orb complain obind]; [split; [discriminate|intros [X _]; now exfalso]|].
    destruct (String.eqb_spec mode "silence") as [->|H2]; cbn [complain obind]; [split; [discriminate|intros (_ & X & _); now exfalso]|].
    split; [intros [= <- <-]; auto|]. intros (_ & _ & -> & ->). reflexivity.
Qed.
Print Assumptions C93_viewers.

(** Operators: the first leaf on which the operator fails, or that the operands do not fit. *)
Theorem C93_operators {N} (op : array N -> array N -> res (array N)) a b context :
  plain_context context -> tree_wf a = true -> tree_wf b = true ->
  (forall e text, m_execute_binary op a b context = Throws e text <->
     e = RuntimeError /\
     ((forall a' b', ~ paired a b a' b') /\ text = Some (operands_message context) \/
      exists a' b' i, paired a b a' b' /\ first_failure op a' b' i /\ text = Some (operator_message context i))) /\
  (forall i j, operator_message context i = operator_message context j -> i = j).
Proof.
  intros P Wa Wb. split; [|intros i j E; apply operator_message_tells in E as [_ E]; [exact E|apply P|apply P]].
  intros e text. destruct (binary_says op context a b P Wa Wb) as [(out & a' & b' & -> & Pr & H)|[[-> H]|(a' & b' & i & -> & Pr & F)]].
  - split; [discriminate|]. intros (_ & [[X _]|(a2 & b2 & i & Pr' & F & _)]); [exfalso; eapply X; exact Pr|].
    destruct (paired_fun _ _ _ _ _ _ Pr Pr') as [-> ->]. destruct F as [(x & y & Hx & Hy & O) _]. exfalso. apply O. eauto.
  - split; [intros [= <- <-]; auto|]. intros (-> & [[_ ->]|(a2 & b2 & i & Pr & _)]); [reflexivity|]. exfalso. eapply H; exact Pr.
  - split; [intros [= <- <-]; split; [reflexivity|]; right; exists a', b', i; auto|].
    intros (-> & [[X _]|(a2 & b2 & j & Pr' & F' & ->)]); [exfalso; eapply X; exact Pr|].
    destruct (paired_fun _ _ _ _ _ _ Pr Pr') as [-> ->]. now rewrite (failure_fun op _ _ _ _ F F').
Qed.
Print Assumptions C93_operators.

(** Spreading a pytree over another: the first thing that stands in the way. *)
Theorem C93_broadcasting {L M} (str_named : string -> string) (str_treedef : treedef -> string) (source : tree L) (target : tree M) :
  plain_names str_named str_treedef -> tree_wf source = true -> tree_wf target = true ->
  (forall n cs, source = Node n cs -> plain_keys n) -> (forall n cs, target = Node n cs -> plain_keys n) ->
  (forall e text, m_broadcast str_named str_treedef source target = Throws e text <->
     (exists x, first_mismatch source target x /\ e = RuntimeError /\ text = Some (mismatch_message str_named str_treedef x)) \/
     (~ clash source target /\ (forall out, ~ spreads source target out) /\
      e = AssertionError /\ text = Some "error 1: This should never happen. Yell at maintainer")) /\
  (clash source target <-> exists x, first_mismatch source target x).
Proof.
  intros P WS WT PS PT.
  assert (Y : forall out, spreads source target out -> clash source target -> False).
  { intros o Sp C. rewrite clash_iff in C. apply spreads_gives in Sp as [G _]. eapply C; exact G. }
  destruct (replicate_says str_named str_treedef source target P WS WT PS PT) as [(out & E & G)|(x & E & F)].
  - assert (NC : ~ clash source target) by (rewrite clash_iff; intros X; now apply (X out)). split.
    2:{ split; [intros C; contradiction|]. intros [x F]. exfalso. apply NC. eapply mismatch_clash; exact F. }
    intros e text. unfold m_broadcast. change "An issue occurred while trying to broadcast two pytrees together: " with broadcasting. rewrite E. cbn [obind]. unfold complain.
    destruct (Nat.eqb_spec (length out) (length (leaves target))) as [El|El]; cbn [obind length Nat.eqb].
    + destruct (gives_spreads _ _ _ G El) as (o & Sp & Eo). destruct (unflatten_ok (structure target) out) as (o' & -> & _); [now rewrite length_leaves_structure|]. cbn [silent].
      split; [discriminate|]. intros [(x & F & _)|(_ & X & _)]; exfalso; [apply NC; eapply mismatch_clash; exact F|eapply X; exact Sp].
    + split.
      * intros [= <- <-]. right. split; [exact NC|]. split; [|auto]. intros o Sp. destruct (spreads_gives _ _ _ Sp) as [G' Es].
        apply El. rewrite (gives_fun _ _ _ G _ G'). exact (structure_eq_length _ _ Es).
      * intros [(x & F & _)|(_ & _ & -> & ->)]; [exfalso; apply NC; eapply mismatch_clash; exact F|reflexivity].
  - split; [|split; [eauto|intros [y F']; eapply mismatch_clash; exact F']].
    intros e text. unfold m_broadcast. change "An issue occurred while trying to broadcast two pytrees together: " with broadcasting. rewrite E. unfold object. cbn [obind]. split.
    + intros [= <- <-]. left. exists x. auto.
    + intros [(y & F' & -> & ->)|(NC & _)]; [now rewrite (mismatch_fun _ _ _ _ F F')|]. exfalso. apply NC. eapply mismatch_clash; exact F.
Qed.
Print Assumptions C93_broadcasting.
(** The text that says that the target has a tensor where the source has a branch is also used when the target has nothing there. *)
Theorem C93_refuted {L M} (str_named : string -> string) (str_treedef : treedef -> string) n (c : tree L) cs m :
  m_broadcast str_named str_treedef (Node n (c :: cs)) (Node m [] : tree M) = Throws RuntimeError (Some (mismatch_message str_named str_treedef BranchOverTensor)).
Proof. unfold m_broadcast. change "An issue occurred while trying to broadcast two pytrees together: " with broadcasting. rewrite over_tensor_says. reflexivity. Qed.
Print Assumptions C93_refuted.
(** It is true of a target without empty containers. *)
Theorem C93_partial {L M} (source : tree L) (target : tree M) :
  (forall n, target <> Node n []) -> first_mismatch source target BranchOverTensor -> exists y, target = Leaf y.
Proof.
  intros H [_ F]. destruct target as [y|n [|d ds]]; [eauto|now exfalso; apply (H n)|]. exfalso. apply F. do 3 eexists. reflexivity.
Qed.
Print Assumptions C93_partial.
Theorem C93_broadcasting_texts_differ (str_named : string -> string) (str_treedef : treedef -> string) x y :
  plain_names str_named str_treedef -> plain_mismatch x -> plain_mismatch y ->
  mismatch_message str_named str_treedef x = mismatch_message str_named str_treedef y -> reads_same str_named str_treedef x y.
Proof. apply mismatch_tells. Qed.
Print Assumptions C93_broadcasting_texts_differ.

Definition named93 : string -> string := fun _ => "<class 'Pair'>".
Definition shown93 : treedef -> string := fun _ => "PyTreeDef(..)".
Definition src93 : tree nat := Node (NDict ["a"; "b"]) [Leaf 1; Node NTuple [Leaf 2; Leaf 3]].
Definition tgt93 : tree nat := Node (NDict ["a"; "b"]) [Node NList [Leaf 7]; Node NList [Leaf 9; Leaf 5]].
Definition fails93 (x y : array QcNum) : res (array QcNum) := if Nat.eqb (length (a_data x)) 2 then Ok x else Err TypeError.
Example C93_case : plain_names named93 shown93 /\ tree_wf src93 = true /\ tree_wf tgt93 = true /\ plain_context "Adding" /\
  says (m_broadcast named93 shown93 src93 tgt93) =
    Some "An issue occurred while trying to broadcast two pytrees together: 

    Issue occurred between trees on child 1 of the following
    pytrees.

    On source pytree: 
    {PyTreeDef(..)} 

    On target pytree: 
    {PyTreeDef(..)}" /\
  says (m_broadcast named93 shown93 (Node NTuple [Leaf 1]) (Node NTuple [Leaf 1; Leaf 2])) = Some (mismatch_message named93 shown93 (CountDiffers 1 2)) /\
  says (m_broadcast named93 shown93 src93 (Node (NDict ["a"; "c"]) [Leaf 1; Leaf 2])) = Some (mismatch_message named93 shown93 (KeyDiffers "b" "c")) /\
  says (m_execute_binary fails93 (Node NTuple [Leaf (hp (q 1 1) (q 1 1)); t_x]) (Node NTuple [Leaf (hp (q 1 1) (q 1 1)); t_x]) "Adding") =
    Some "Adding

    An issue occurred while trying to execute the operator. It failed
    while attempting to execute the operators on leafs '1'
" /\
  says (m_mask_data ctl2 DBool (mkT [2; 3] (repeat true 6))) = Some "Mask of shape (2, 3) does not match batch shape of (2,)".
Proof.
  split; [split; reflexivity|]. split; [vm|]. split; [vm|]. split; [split; [reflexivity|split; discriminate]|]. repeat split; vm.
Qed.
