(** * Properties of core/utils.py (C43 - C49). Vocabulary: UtilsSpec.v. *)
From Coq Require Import QArith Qcanon.
From Verif Require Import Base PyTree Tensor Num Utils UtilsSpec.
From Verif Require Import BaseFacts TensorFacts PyTreeFacts ControllerFacts UtilsFacts QcFacts Samples.
Close Scope Qc_scope. Close Scope Q_scope. Open Scope string_scope. Open Scope list_scope. Open Scope nat_scope.

Definition raised {A} (r : res A) : option exn := match r with Err e => Some e | Ok _ => None end.
Ltac vm := vm_compute; reflexivity.

(** ** C43 *)
Theorem C43_can_right_broadcast (sa sb : list nat) :
  (can_right_broadcast sa sb = true <-> compatible sa sb) /\
  (* and that is when a broadcasting operation on such arrays has a result shape *)
  (can_right_broadcast sa sb = true <-> exists sh, broadcast_shapes sa sb = Some sh).
Proof. rewrite crb_compatible. split; [reflexivity|apply compatible_broadcast]. Qed.
Print Assumptions C43_can_right_broadcast.
Theorem C43_symmetric (sa sb : list nat) : can_right_broadcast sa sb = can_right_broadcast sb sa.
Proof.
  destruct (can_right_broadcast sa sb) eqn:A, (can_right_broadcast sb sa) eqn:B; auto.
  - apply crb_compatible in A. assert (C : compatible sb sa) by (intros i x y H1 H2; destruct (A i y x H2 H1) as [E|[E|E]]; auto).
    apply crb_compatible in C. congruence.
  - apply crb_compatible in B. assert (C : compatible sa sb) by (intros i x y H1 H2; destruct (B i y x H2 H1) as [E|[E|E]]; auto).
    apply crb_compatible in C. congruence.
Qed.
Print Assumptions C43_symmetric.
Example C43_case : can_right_broadcast [5; 3; 1] [3; 7] = true /\ can_right_broadcast [3; 2] [3] = false /\
  can_right_broadcast [] [4] = true.
Proof. repeat split. Qed.

(** ** C44 *)
Theorem C44_setup_left_broadcast {A} (t : tensor A) (target : list nat) :
  (shape t = [] -> setup_left_broadcast t target = Ok t) /\
  (shape t <> [] -> length target < length (shape t) -> setup_left_broadcast t target = Err AssertionError) /\
  (shape t <> [] -> length (shape t) <= length target ->
   exists t', setup_left_broadcast t target = Ok t' /\ data t' = data t /\ length (shape t') = length target /\
     exists ones, shape t' = shape t ++ ones /\ Forall (eq 1) ones).
Proof.
  rewrite slb_char. destruct t as [sh d]. cbn [shape data]. split; [|split].
  - now intros ->.
  - intros H Hl. destruct sh; [congruence|]. cbn [length Nat.eqb].
    destruct (Nat.leb_spec (S (length sh)) (length target)); [cbn in Hl; lia|reflexivity].
  - intros H Hl. destruct sh as [|x sh]; [congruence|]. cbn [length Nat.eqb] in *.
    rewrite (proj2 (Nat.leb_le _ _) Hl). eexists. split; [reflexivity|]. cbn [shape data]. split; [reflexivity|].
    split; [rewrite app_length, repeat_length; cbn; lia|]. eexists. split; [reflexivity|].
    apply Forall_forall. intros y Hy. apply repeat_spec in Hy. now symmetry.
Qed.
Print Assumptions C44_setup_left_broadcast.
Theorem C44_left_broadcast_repeats {A} (t : tensor A) (R : list nat) :
  twf t ->
  exists t' t'', setup_left_broadcast t (shape t ++ R) = Ok t' /\ broadcast_to t' (shape t ++ R) = Ok t'' /\
    shape t'' = shape t ++ R /\ length (data t'') = size (shape t ++ R) /\
    forall j, j < size (shape t ++ R) -> nth_error (data t'') j = nth_error (data t) (j / size R).
Proof.
  intros W. destruct (slb_ok t R) as (t' & E & D & Li). exists t'. eexists. split; [exact E|].
  rewrite (lifted_broadcast_to (shape t) R t' Li) by (rewrite D; exact W). split; [reflexivity|]. cbn [shape data].
  split; [reflexivity|]. rewrite expand_length, D, size_app. unfold twf in W. split; [now rewrite W|].
  intros j Hj. apply nth_error_expand. destruct (size R); lia.
Qed.
Print Assumptions C44_left_broadcast_repeats.
Example C44_case : twf (mkT [2] [true; false]) /\ setup_left_broadcast (mkT [2] [true; false]) [2; 3] = Ok (mkT [2; 1] [true; false]) /\
  setup_left_broadcast (mkT [2; 1] [true; false]) [2] = Err AssertionError.
Proof. repeat split. Qed.

(** ** C45 *)
Theorem C45_broadcast_pytree_shape {L M} (source : tree L) (target : tree M) :
  tree_wf source = true -> tree_wf target = true ->
  (forall out, broadcast_pytree_shape source target = Ok out <-> spreads source target out) /\
  (broadcast_pytree_shape source target = Err RuntimeError <-> clash source target) /\
  (forall e, broadcast_pytree_shape source target = Err e -> e = RuntimeError \/ e = AssertionError) /\
  (forall o1 o2, spreads source target o1 -> spreads source target o2 -> o1 = o2) /\
  (forall out, spreads source target out -> structure out = structure target /\
     forall x, In x (leaves out) -> In x (leaves source)).
Proof.
  intros WS WT. split; [intros out; now apply broadcast_pytree_ok|]. split.
  { split.
    - intros H. apply clash_iff. destruct (broadcast_pytree_err _ _ _ WS WT H) as [[_ G]|[E _]]; [exact G|discriminate].
    - intros C. rewrite clash_iff in C. destruct (broadcast_pytree_shape source target) as [o|e] eqn:E.
      + apply broadcast_pytree_ok in E; auto. apply spreads_gives in E as [G _]. exfalso. eapply C; exact G.
      + destruct (broadcast_pytree_err _ _ _ WS WT E) as [[-> _]|[_ (o & G & _)]]; [reflexivity|]. exfalso. eapply C; exact G. }
  split.
  { intros e H. destruct (broadcast_pytree_err _ _ _ WS WT H) as [[-> _]|[-> _]]; auto. }
  split; [intros o1 o2; apply spreads_fun|].
  intros out Sp. destruct (spreads_gives _ _ _ Sp) as [G E]. split; [exact E|]. clear - G. revert G. generalize (leaves out). clear.
  revert source target. apply (gives_mind L M (fun S T o _ => forall x, In x o -> In x (leaves S))
    (fun cs ds o _ => forall x, In x o -> In x (flat_map leaves cs))); cbn; auto.
  - intros x t y Hy. apply repeat_spec in Hy. auto.
  - intros c d o cs ds os _ I1 _ I2 x Hx. apply in_app_or in Hx. apply in_or_app. destruct Hx; auto.
Qed.
Print Assumptions C45_broadcast_pytree_shape.
(** When nothing in the source is an empty container the answer is yes or a RuntimeError. *)
Fixpoint no_empty {L} (t : tree L) : bool :=
  match t with Leaf _ => true | Node _ [] => false | Node _ cs => forallb no_empty cs end.
Theorem C45_prefix_decided {L M} (source : tree L) (target : tree M) :
  tree_wf source = true -> tree_wf target = true -> no_empty source = true ->
  (exists out, broadcast_pytree_shape source target = Ok out) \/
  broadcast_pytree_shape source target = Err RuntimeError.
Proof.
  intros WS WT NE. destruct (broadcast_pytree_shape source target) as [o|e] eqn:E; [eauto|].
  destruct (broadcast_pytree_err _ _ _ WS WT E) as [[-> _]|[_ (o & G & Hl)]]; [auto|]. exfalso.
  assert (X : length o = length (leaves target)); [|lia]. clear - NE G. revert NE. revert source target o G.
  apply (gives_mind L M (fun S T o _ => no_empty S = true -> length o = length (leaves T))
    (fun cs ds o _ => forallb no_empty cs = true -> length o = length (flat_map leaves ds))).
  - intros x t _. apply repeat_length.
  - discriminate.
  - intros n cs ds out Hne _ IH H. cbn. destruct cs; [congruence|]. apply IH. exact H.
  - reflexivity.
  - intros c d o cs ds os _ I1 _ I2 H. cbn in H. apply andb_true_iff in H as [H1 H2]. cbn. rewrite !app_length. rewrite I1, I2; auto.
Qed.
Print Assumptions C45_prefix_decided.
Definition src45 : tree nat := Node (NDict ["a"; "b"]) [Leaf 1; Node NTuple [Leaf 2; Leaf 3]].
Definition tgt45 : tree nat := Node (NDict ["a"; "b"]) [Node NList [Leaf 7; tnone; Leaf 8]; Node NTuple [Leaf 9; Node NTuple [Leaf 5; Leaf 6]]].
Example C45_case : tree_wf src45 = true /\ tree_wf tgt45 = true /\ no_empty src45 = true /\
  broadcast_pytree_shape src45 tgt45 =
    Ok (Node (NDict ["a"; "b"]) [Node NList [Leaf 1; tnone; Leaf 1]; Node NTuple [Leaf 2; Node NTuple [Leaf 3; Leaf 3]]]) /\
  broadcast_pytree_shape tgt45 src45 = Err RuntimeError.
Proof. repeat split; vm. Qed.

(** ** C46 *)
Theorem C46_execute_binary_operator {N} (op : array N -> array N -> res (array N)) (a b : tree (array N)) :
  tree_wf a = true -> tree_wf b = true ->
  (forall out, execute_binary_operator op a b = Ok out <->
     exists a' b', paired a b a' b' /\ structure a' = structure b' /\ structure out = structure a' /\
       forall i x y, nth_error (leaves a') i = Some x -> nth_error (leaves b') i = Some y ->
         let n := Nat.max (length (a_shape x)) (length (a_shape y)) in
         exists z, op (aligned x n) (aligned y n) = Ok z /\ nth_error (leaves out) i = Some z) /\
  (forall e, execute_binary_operator op a b = Err e -> e = RuntimeError).
Proof. intros Wa Wb. split; [intros out; now apply binary_core|]. intros e. now apply binary_err. Qed.
Print Assumptions C46_execute_binary_operator.
(** the common case: equal structures *)
Theorem C46_equal_structure {N} (op : array N -> array N -> res (array N)) (a b out : tree (array N)) :
  tree_wf a = true -> tree_wf b = true -> structure a = structure b ->
  execute_binary_operator op a b = Ok out <->
  structure out = structure a /\
  forall i x y, nth_error (leaves a) i = Some x -> nth_error (leaves b) i = Some y ->
    let n := Nat.max (length (a_shape x)) (length (a_shape y)) in
    exists z, op (aligned x n) (aligned y n) = Ok z /\ nth_error (leaves out) i = Some z.
Proof.
  intros Wa Wb Es. rewrite binary_core by assumption.
  assert (Sp : spreads a b a).
  { clear - Es. revert b Es. induction a as [x|n cs IH] using tree_ind'; intros [y|m ds] Es; try discriminate.
    - exact (spreads_leaf x (Leaf y)).
    - rewrite !structure_Node in Es. injection Es as -> Es. constructor.
      revert ds Es. induction IH as [|c cs Hc _ IHc]; intros [|d ds] Es; try discriminate; constructor; injection Es as E1 E2; auto. }
  split.
  - intros (a' & b' & [[S1 ->]|(C & S1 & ->)] & _ & Eo & H).
    + rewrite (spreads_fun _ _ _ _ S1 Sp) in *. auto.
    + exfalso. rewrite clash_iff in C. apply spreads_gives in Sp as [G _]. eapply C; exact G.
  - intros [Eo H]. exists a, b. split; [left; auto|]. auto.
Qed.
Print Assumptions C46_equal_structure.
Definition sub46 (x y : array QcNum) : res (array QcNum) := a_bin (N := QcNum) Qcminus x y.
Definition ta46 : tree (array QcNum) := Leaf (arr [2] [q 1 1; q 2 1]).
Definition tb46 : tree (array QcNum) := Node NTuple [Leaf (arr [2] [q 5 1; q 5 1]); Leaf (arr [2; 2] [q 1 1; q 2 1; q 3 1; q 4 1])].
Example C46_case : tree_wf ta46 = true /\ tree_wf tb46 = true /\
  match execute_binary_operator sub46 ta46 tb46 with
  | Ok t => map (fun a : array QcNum => map this (a_data a)) (leaves t) = [[-4#1; -3#1]; [0#1; -1#1; -1#1; -2#1]]%Q
  | Err _ => False end /\
  match execute_binary_operator sub46 tb46 ta46 with
  | Ok t => map (fun a : array QcNum => map this (a_data a)) (leaves t) = [[4#1; 3#1]; [0#1; 1#1; 1#1; 2#1]]%Q
  | Err _ => False end.
Proof. repeat split; vm. Qed.

(** ** C47 *)
Theorem C47_merge_pytrees {A B C} (f : A -> B -> res C) (p : tree A) (a : tree B) :
  (forall out, merge_pytrees f p a = Ok out <->
     length (leaves p) = length (leaves a) /\ structure out = structure p /\
     forall i x y, nth_error (leaves p) i = Some x -> nth_error (leaves a) i = Some y ->
       exists z, f x y = Ok z /\ nth_error (leaves out) i = Some z) /\
  (length (leaves p) <> length (leaves a) -> merge_pytrees f p a = Err AssertionError) /\
  (forall e, length (leaves p) = length (leaves a) -> merge_pytrees f p a = Err e ->
     exists i x y, nth_error (leaves p) i = Some x /\ nth_error (leaves a) i = Some y /\ f x y = Err e).
Proof.
  split; [intros out; apply merge_ok_iff|]. split.
  - intros H. unfold merge_pytrees. destruct (Nat.eqb_spec (length (leaves p)) (length (leaves a))); [contradiction|reflexivity].
  - intros e El. unfold merge_pytrees. rewrite (proj2 (Nat.eqb_eq _ _) El). cbn [guard bind].
    destruct (mapM2 f (leaves p) (leaves a)) as [ls|e'] eqn:E; cbn [bind].
    + intros H. apply unflatten_err_length in H. apply mapM2_length in E. rewrite length_leaves_structure in H. lia.
    + intros [= ->]. now apply mapM2_err.
Qed.
Print Assumptions C47_merge_pytrees.
Example C47_case : merge_pytrees (fun x y => Ok (x - y)) src45 (Node NList [Leaf 1; Leaf 1; Leaf 1]) =
    Ok (Node (NDict ["a"; "b"]) [Leaf 0; Node NTuple [Leaf 1; Leaf 2]]) /\
  raised (merge_pytrees (fun x y => Ok (x - y)) src45 tgt45) = Some AssertionError.
Proof. split; vm. Qed.

(** ** C48 *)
(** A leaf (a tensor) and [None] are reported as equal structures, anywhere in a tree. *)
Theorem C48_refuted {A B} (t1 : tree A) (t2 : tree B) :
  (are_pytree_structure_equal t1 t2 = true <-> same_up_to_none t1 t2) /\
  (forall x : A, are_pytree_structure_equal (Leaf x) (@tnone B) = true /\ structure (Leaf x) <> structure (@tnone B)).
Proof. split; [apply structure_equal_iff|]. intros x. split; [reflexivity|discriminate]. Qed.
Print Assumptions C48_refuted.
(** It never misses an equality, and on trees without [None] it is exact. *)
Theorem C48_partial {A B} (t1 : tree A) (t2 : tree B) :
  (structure t1 = structure t2 -> are_pytree_structure_equal t1 t2 = true) /\
  (no_none t1 = true -> no_none t2 = true ->
   are_pytree_structure_equal t1 t2 = true <-> structure t1 = structure t2).
Proof.
  assert (H1 : structure t1 = structure t2 -> are_pytree_structure_equal t1 t2 = true).
  { intros E. unfold are_pytree_structure_equal. apply td_eqb_eq. now apply structure_none_out. }
  split; [exact H1|]. intros N1 N2. split; [|exact H1]. rewrite structure_equal_iff. now apply no_none_structure.
Qed.
Print Assumptions C48_partial.
Theorem C48_equivalence {A} (t1 t2 t3 : tree A) :
  are_pytree_structure_equal t1 t1 = true /\
  (are_pytree_structure_equal t1 t2 = true -> are_pytree_structure_equal t2 t1 = true) /\
  (are_pytree_structure_equal t1 t2 = true -> are_pytree_structure_equal t2 t3 = true -> are_pytree_structure_equal t1 t3 = true).
Proof. unfold are_pytree_structure_equal. rewrite !td_eqb_eq. repeat split; congruence. Qed.
Print Assumptions C48_equivalence.
Example C48_case : no_none src45 = true /\ are_pytree_structure_equal src45 (tmap (fun _ => true) src45) = true /\
  are_pytree_structure_equal src45 tgt45 = false /\
  are_pytree_structure_equal (Node NTuple [Leaf 1; Leaf 2]) (Node NTuple [tnone; Leaf true]) = true.
Proof. repeat split; vm. Qed.

(** ** C49 *)
(** The structure is ignored: the answer only depends on the leaves. With different leaf counts
    it is not False but an AssertionError. *)
Theorem C49_refuted {N} (u : bool) (t1 t2 : tree (eleaf N)) :
  (forall t1' t2', leaves t1' = leaves t1 -> leaves t2' = leaves t2 ->
     are_pytrees_equal u t1' t2' = are_pytrees_equal u t1 t2) /\
  (length (leaves t1) <> length (leaves t2) -> are_pytrees_equal u t1 t2 = Err AssertionError) /\
  (forall ty c, are_pytrees_equal u (Node NTuple [Leaf (@EObj N ty c)]) (Leaf (EObj ty c)) = Ok true).
Proof.
  split; [|split].
  - intros t1' t2' E1 E2. now rewrite !pytrees_equal_leaves, E1, E2.
  - intros H. rewrite pytrees_equal_leaves. now rewrite (proj2 (Nat.eqb_neq _ _) H).
  - intros ty c. rewrite pytrees_equal_leaves. cbn. rewrite Nat.eqb_refl. cbn. now rewrite Z.eqb_refl.
Qed.
Print Assumptions C49_refuted.
(** Arrays of different shapes are compared after broadcasting. *)
Theorem C49_refuted_shapes (v : Qc) (n : nat) :
  are_pytrees_equal (N := QcNum) false
    (Leaf (EArr false (mkA (N := QcNum) DF32 (mkT [] [v])))) (Leaf (EArr false (mkA (N := QcNum) DF32 (mkT [n] (repeat v n))))) = Ok true.
Proof.
  rewrite pytrees_equal_leaves. cbn [leaves length Nat.eqb mapM2 are_leaves_equal Bool.eqb negb]. unfold all_eq. cbn [a_ten].
  rewrite (tbin_lifted_l _ [] [n]); cbn [shape data length]; auto.
  - cbn [bind tall data app size fold_right]. unfold expand. cbn [flat_map]. rewrite app_nil_r, Nat.mul_1_r.
    assert (E : forallb (fun b : bool => b) (map2 (v_eqb QcNum) (repeat v n) (repeat v n)) = true).
    { induction n; [reflexivity|]. cbn [repeat map2 forallb]. rewrite IHn, andb_true_r. cbn. unfold Qceqb. now destruct (Qc_eq_dec v v). }
    match goal with |- context [tall ?t] => replace (tall t) with true by (symmetry; exact E) end. reflexivity.
  - right. auto.
  - unfold twf. cbn. rewrite repeat_length. lia.
Qed.
Print Assumptions C49_refuted_shapes.
(** On trees of equal structure whose tensors have equal shapes it is leafwise comparison. *)
Definition leaf_match {N} (u : bool) (l1 l2 : eleaf N) : Prop :=
  match l1, l2 with
  | EArr n1 a1, EArr n2 a2 => n1 = n2 /\
      forall j x y, nth_error (a_data a1) j = Some x -> nth_error (a_data a2) j = Some y ->
        (if u then v_close N x y else v_eqb N x y) = true
  | EObj t1 c1, EObj t2 c2 => t1 = t2 /\ c1 = c2
  | _, _ => False
  end.
Definition comparable {N} (l1 l2 : eleaf N) : Prop :=
  match l1, l2 with
  | EArr _ a1, EArr _ a2 => awf a1 /\ awf a2 /\ a_shape a1 = a_shape a2
  | _, _ => True
  end.
Theorem C49_partial {N} (u : bool) (t1 t2 : tree (eleaf N)) :
  structure t1 = structure t2 -> Forall2 comparable (leaves t1) (leaves t2) ->
  exists b, are_pytrees_equal u t1 t2 = Ok b /\ (b = true <-> Forall2 (leaf_match u) (leaves t1) (leaves t2)).
Proof.
  intros Es F. rewrite pytrees_equal_leaves. rewrite (proj2 (Nat.eqb_eq _ _) (structure_eq_length _ _ Es)).
  assert (K : forall l1 l2 : eleaf N, comparable l1 l2 -> exists b, are_leaves_equal u l1 l2 = Ok b /\ (b = true <-> leaf_match u l1 l2)).
  { intros [n1 a1|ty1 c1] [n2 a2|ty2 c2] C; cbn.
    - destruct C as (W1 & W2 & Hs). destruct (Bool.eqb n1 n2) eqn:En; cbn [negb].
      + apply Bool.eqb_prop in En as ->.
        assert (G : forall f : val N -> val N -> bool, exists b, (t <- tbin f (a_ten a1) (a_ten a2) ;; Ok (tall t)) = Ok b /\
            (b = true <-> (forall j x y, nth_error (a_data a1) j = Some x -> nth_error (a_data a2) j = Some y -> f x y = true))).
        { intros f. rewrite tbin_same by assumption. cbn [bind]. eexists. split; [reflexivity|]. unfold tall. cbn [data].
          fold (a_data a1) (a_data a2). rewrite forallb_forall. split.
          - intros H j x y Hx Hy. apply H. apply nth_error_In with j. rewrite nth_error_map2, Hx, Hy. reflexivity.
          - intros H b Hb. apply In_nth_error in Hb as [j Hj]. rewrite nth_error_map2 in Hj.
            destruct (nth_error (a_data a1) j) as [x|] eqn:Ex; [|discriminate].
            destruct (nth_error (a_data a2) j) as [y|] eqn:Ey; [|discriminate].
            assert (b = f x y) as -> by congruence. eapply H; eassumption. }
        destruct u; [destruct (G (v_close N)) as (b & E & H)|destruct (G (v_eqb N)) as (b & E & H)];
          exists b; (split; [exact E|]); rewrite H; tauto.
      + exists false. split; [reflexivity|]. split; [discriminate|]. intros [-> _]. rewrite Bool.eqb_reflx in En. discriminate.
    - exists false. split; [reflexivity|]. split; [discriminate|contradiction].
    - exists false. split; [reflexivity|]. split; [discriminate|contradiction].
    - destruct (Nat.eqb_spec ty1 ty2) as [->|Ne]; cbn [negb].
      + exists (Z.eqb c1 c2). split; [reflexivity|]. rewrite Z.eqb_eq. tauto.
      + exists false. split; [reflexivity|]. split; [discriminate|]. intros [H _]. contradiction. }
  induction F as [|l1 l2 ls1 ls2 C F IH]; cbn [mapM2 bind].
  - exists true. split; [reflexivity|]. split; [constructor|reflexivity].
  - destruct (K l1 l2 C) as (b & -> & Hb). cbn [bind]. destruct IH as (bs & E & Hbs).
    destruct (mapM2 (are_leaves_equal u) ls1 ls2) as [xs|e]; cbn [bind] in E |- *; [|discriminate].
    injection E as E. cbn [forallb]. rewrite E. exists (b && bs). split; [reflexivity|].
    rewrite andb_true_iff, Hb, Hbs. split; [intros [H1 H2]; now constructor|intros H; now inversion H].
Qed.
Print Assumptions C49_partial.
Definition e49 (v : Qc) : tree (eleaf QcNum) := Node NTuple [Leaf (EArr false (arr [2] [v; q 1 2])); Leaf (EObj 3 7)].
Example C49_case : Forall2 comparable (leaves (e49 (q 1 3))) (leaves (e49 (q 1 4))) /\
  structure (e49 (q 1 3)) = structure (e49 (q 1 4)) /\
  are_pytrees_equal true (e49 (q 1 3)) (e49 (q 1 4)) = Ok false /\ are_pytrees_equal true (e49 (q 1 3)) (e49 (q 1 3)) = Ok true.
Proof. split; [repeat constructor|]. split; [reflexivity|]. split; vm. Qed.
