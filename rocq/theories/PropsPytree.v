(** * Controllers as pytrees (C79). Vocabulary: PytreeSpec.v. *)
From Coq Require Import QArith Qcanon.
From Verif Require Import Base PyTree Tensor Num Utils States Controller Builder Viewer Editor Layers Wf Spec History ElementSpec BuilderSpec StateSpec PytreeSpec.
From Verif Require Import BaseFacts PyTreeFacts TensorFacts QcFacts StateFacts PytreeFacts Samples PropsState.
Close Scope Qc_scope. Close Scope Q_scope. Open Scope string_scope. Open Scope list_scope. Open Scope nat_scope.

(** ** C79 *)
(** The leaves of a controller are its arrays, its two float settings and the error mode if there is one: nothing
    is hidden and nothing is added. *)
Theorem C79_leaves {N} (s : state N) : proper s ->
  (forall a, In (LArr a) (tree_leaves s) <-> holds s a) /\
  (forall x, In (LScl x) (tree_leaves s) <-> x = epsilon s \/ x = depression_constant s) /\
  (forall m, In (LStr m) (tree_leaves s) <-> error_mode s = Some m) /\
  length (tree_leaves s) = 5 + list_sum (map (fun t => length (leaves t)) (dvals (defaults s) ++ dvals (accumulators s) ++ dvals (updates s))) +
                           match error_mode s with Some _ => 1 | None => 0 end.
Proof.
  intros P. repeat split; try apply number_of_leaves.
  - intros H. apply leaves_are in H; [|exact P]. destruct H as [H|[H|[(m & _ & H)|(a' & H & Q)]]]; try discriminate. congruence.
  - intros H. apply leaves_are; [exact P|]. eauto 6.
  - intros H. apply leaves_are in H; [|exact P]. destruct H as [H|[H|[(m & _ & H)|(a' & H & Q)]]]; try discriminate; injection H; auto.
  - intros [->| ->]; apply leaves_are; auto.
  - intros H. apply leaves_are in H; [|exact P]. destruct H as [H|[H|[(m' & E & H)|(a' & H & Q)]]]; try discriminate. congruence.
  - intros H. apply leaves_are; [exact P|]. eauto 6.
Qed.
Print Assumptions C79_leaves.
(** Mapping over a controller succeeds for every function, and gives the controller whose data are the images. *)
Theorem C79_tree_map {N} (f : array N -> array N) g (s : state N) : proper s ->
  exists s', tree_map (on_leaves f g) s = Ok s' /\ image f g s s'.
Proof. intros P. eexists. split; [apply tree_map_ok|now apply image_of_image]. Qed.
Print Assumptions C79_tree_map.
(** Two controllers have equal tree structures iff they have the same names with trees of equal structure in each of
    the three dictionaries, whatever the order of definition, and both or neither have an error mode. *)
Theorem C79_tree_structure {N} (s1 s2 : state N) : proper s1 -> proper s2 ->
  (tree_structure s1 = tree_structure s2 <-> same_layout s1 s2).
Proof. apply treedef_same. Qed.
Print Assumptions C79_tree_structure.
(** Mapping over two controllers combines them name by name and place by place if they are laid out alike, however
    their names were ordered, and is a ValueError otherwise. *)
Theorem C79_two_controllers {N} (f : array N -> array N -> array N) g (s1 s2 : state N) : proper s1 -> proper s2 ->
  (same_layout s1 s2 -> exists s', tree_map2 (on_leaves2 f g) s1 s2 = Ok s' /\ image2 f g s1 s2 s') /\
  (~ same_layout s1 s2 -> tree_map2 (on_leaves2 f g) s1 s2 = Err ValueError).
Proof.
  intros P1 P2. split; [now apply tree_map2_ok|]. intros H. unfold tree_map2. destruct (same_treedef s1 s2) eqn:E; [|reflexivity].
  exfalso. apply H, treedef_same; auto. now apply same_treedef_eq.
Qed.
Print Assumptions C79_two_controllers.
(** A wrong number of leaves is refused. *)
Theorem C79_wrong_number_of_leaves {N} (s : state N) (ls : list (pyleaf N)) :
  length ls <> length (tree_leaves s) -> unflatten_controller (tree_structure s) ls = Err ValueError.
Proof. apply rebuild_wrong. Qed.
Print Assumptions C79_wrong_number_of_leaves.
(** [ctl2] and [ctl_yx] were defined in different orders and are laid out alike; [ctl1] lacks "y" *)
Definition twice (a : array QcNum) : array QcNum := mkA (N := QcNum) (a_dt a) (mkT (shape (a_ten a)) (map (fun x => Qcplus x x) (data (a_ten a)))).
Example C79_case : proper ctl2 /\ proper ctl_yx /\ same_layout ctl2 ctl_yx /\ ~ same_layout ctl2 ctl1 /\
  dkeys (accumulators ctl2) = ["x"; "y"] /\ dkeys (accumulators ctl_yx) = ["y"; "x"] /\ length (tree_leaves ctl2) = 12 /\
  (exists s', tree_map (on_leaves twice (fun e => e)) ctl_yx = Ok s' /\
     option_map leaves (dget "x" (accumulators s')) = Some [twice (arr [2; 2] [q 1 1; q 2 1; q 3 1; q 4 1])]).
Proof.
  assert (P : proper ctl2).
  { unfold proper. change (dkeys (defaults ctl2)) with ["x"; "y"]. change (dkeys (accumulators ctl2)) with ["x"; "y"].
    change (dkeys (updates ctl2)) with ["x"; "y"].
    assert (X : NoDup ["x"; "y"]) by (repeat constructor; cbn; intuition discriminate). auto. }
  split; [exact P|]. split; [exact ctl_yx_proper|]. split.
  { apply treedef_same; [exact P|exact ctl_yx_proper|]. apply same_treedef_eq. vm. }
  split. { intros (H & _). specialize (H "y"). vm_compute in H. discriminate. }
  split; [vm|]. split; [vm|]. split; [vm|].
  destruct (C79_tree_map twice (fun e => e) ctl_yx ctl_yx_proper) as (s' & H & I). exists s'. split; [exact H|].
  rewrite (im_acc _ _ _ _ I).
  assert (E : dget "x" (accumulators ctl_yx) = Some t_x) by reflexivity. rewrite E. reflexivity.
Qed.
