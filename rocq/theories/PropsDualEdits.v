(** * C94, edits and comparisons: tangents have no influence on what a setter accepts and does, nor on what counts as equal.
    Vocabulary: DualSpec.v, EditSpec.v. *)
From Coq Require Import QArith Qcanon.
From Verif Require Import Base PyTree Tensor Num Utils States Controller Editor Wf Spec History EditorSpec EditSpec Jit JitSpec Dual TraceSpec DualSpec.
From Verif Require Import BaseFacts TensorFacts PyTreeFacts TraceFacts MoveFacts IeeeLoopFacts2 Samples DualCases.
Close Scope Qc_scope. Close Scope Q_scope. Open Scope string_scope. Open Scope list_scope. Open Scope nat_scope.

(** The values in an editor, in the argument of a setter, in a leaf of a pytree that is compared. *)
Definition value_editor (e : editor DualNum) : editor QcNum := mkEd (values (ed_state e)) (ed_mode e).
Definition value_edit (c : edit DualNum) : edit QcNum :=
  match c with
  | EProbabilities v => EProbabilities (value_array v)
  | EResiduals v => EResiduals (value_array v)
  | EIterations v => EIterations (value_array v)
  | EEpsilon x => EEpsilon (N := QcNum) (fst (x : dual))
  | EAccumulator name v => EAccumulator name (value_tree v)
  | EDefaults name v => EDefaults name (value_tree v)
  | EUpdates name v => EUpdates name (value_tree v)
  end.
Definition value_leaf (l : eleaf DualNum) : eleaf QcNum :=
  match l with EArr np a => EArr np (value_array a) | EObj ty code => EObj ty code end.

Lemma none_out_tmap {A B} (f : A -> B) t : none_out (tmap f t) = none_out t.
Proof.
  induction t as [l|n cs IH] using tree_ind'; [reflexivity|]. cbn. f_equal. rewrite map_map. induction IH as [|c cs Hc _ IH]; cbn; congruence.
Qed.
Lemma is_none_tmap {A B} (f : A -> B) t : is_none (tmap f t) = is_none t.
Proof. destruct t; reflexivity. Qed.
Lemma dset_values k t (d : dict (tree (array DualNum))) : move_dict (N := DualNum) (M := QcNum) fst (dset k t d) = dset k (value_tree t) (move_dict (N := DualNum) (M := QcNum) fst d).
Proof. induction d as [|[k0 v] d IH]; [reflexivity|]. cbn. destruct (String.eqb k k0); cbn; [reflexivity|]. f_equal. exact IH. Qed.
Lemma dmem_values k (d : dict (tree (array DualNum))) : dmem k (move_dict (N := DualNum) (M := QcNum) fst d) = dmem k d.
Proof. unfold dmem. rewrite (dget_move (N := DualNum) (M := QcNum)). now destruct (dget k d). Qed.
Lemma dlookup_values k (d : dict (tree (array DualNum))) : dlookup k (move_dict (N := DualNum) (M := QcNum) fst d) = outcome_map value_tree (dlookup k d).
Proof. unfold dlookup. rewrite (dget_move (N := DualNum) (M := QcNum)). now destruct (dget k d). Qed.
Lemma checks_leaves_values (a b : tree (array DualNum)) : checks_leaves (value_tree a) (value_tree b) = checks_leaves a b.
Proof.
  unfold checks_leaves, value_tree, move_tree. rewrite !leaves_tmap. f_equal. generalize (leaves a) (leaves b). clear.
  induction l as [|x l IH]; intros [|y m]; cbn; [reflexivity..|]. f_equal. apply IH.
Qed.
Lemma structure_values (a b : tree (array DualNum)) : check_structure (value_tree a) (value_tree b) = check_structure a b.
Proof. unfold check_structure, are_pytree_structure_equal, value_tree, move_tree. now rewrite !none_out_tmap. Qed.
Lemma probability_values (a : array DualNum) : checks_probability (value_array a) = checks_probability a.
Proof.
  assert (E : forall (f : Qc -> bool) (g : dual -> bool) (l : list dual), (forall x, f (fst x) = g x) -> existsb f (map fst l) = existsb g l).
  { intros f g l H. induction l as [|x l IH]; cbn; [reflexivity|]. now rewrite H, IH. }
  unfold checks_probability. change (a_data (value_array a)) with (map (fst (A := Qc) (B := Qc)) (a_data a)).
  f_equal; [f_equal; apply E; reflexivity|]. f_equal. f_equal. apply E. reflexivity.
Qed.
Lemma natural_values (a : array DualNum) : check_natural (value_array a) = check_natural a.
Proof.
  unfold check_natural. change (a_data (value_array a)) with (map (fst (A := Qc) (B := Qc)) (a_data a)).
  assert (E : forall (f : Qc -> bool) (g : dual -> bool) (l : list dual), (forall x, f (fst x) = g x) -> forallb f (map fst l) = forallb g l).
  { intros f g l H. induction l as [|x l IH]; cbn; [reflexivity|]. now rewrite H, IH. }
  apply E. reflexivity.
Qed.
Lemma like_values (s : state DualNum) name v : checks_like_accumulator (values s) name (value_tree v) = checks_like_accumulator s name v.
Proof.
  unfold checks_like_accumulator, check_exists, values, move. cbn [accumulators defaults]. rewrite !dmem_values, dlookup_values.
  destruct (dmem name (accumulators s)); [|reflexivity]. destruct (dlookup name (accumulators s)); cbn [outcome_map bind]; [|reflexivity].
  now rewrite structure_values, checks_leaves_values.
Qed.
Lemma updates_values (s : state DualNum) name v : checks_updates (values s) name (value_tree v) = checks_updates s name v.
Proof.
  unfold checks_updates, check_exists, values, move. cbn [accumulators defaults]. rewrite !dmem_values, dlookup_values. unfold value_tree at 1, move_tree at 1.
  rewrite is_none_tmap. destruct (is_none v); [reflexivity|]. destruct (dlookup name (defaults s)); cbn [outcome_map bind]; [|reflexivity].
  now rewrite structure_values, checks_leaves_values.
Qed.
Lemma execute_values (e : editor DualNum) bs : execute_checks (value_editor e) bs = execute_checks e bs.
Proof. reflexivity. Qed.

Theorem C94_edits (e : editor DualNum) (cs : list (edit DualNum)) :
  editing (value_editor e) (map value_edit cs) = value_editor (editing e cs) /\
  forall c, apply_edit (value_editor (editing e cs)) (value_edit c) = outcome_map value_editor (apply_edit (editing e cs) c).
Proof.
  assert (One : forall e c, apply_edit (value_editor e) (value_edit c) = outcome_map value_editor (apply_edit e c)).
  { clear. intros e c.
    assert (Fin : forall bs bs' (r : replace_args DualNum) (r' : replace_args QcNum),
      bs = bs' -> replace (values (ed_state e)) r' = outcome_map values (replace (ed_state e) r) ->
      (_ <- execute_checks (value_editor e) bs' ;; s <- replace (values (ed_state e)) r' ;; Ok (mkEd s (ed_mode e))) =
      outcome_map value_editor (_ <- execute_checks e bs ;; s <- replace (ed_state e) r ;; Ok (mkEd s (ed_mode e)))).
    { intros bs bs' r r' <- H. rewrite execute_values. destruct (execute_checks e bs); [|reflexivity]. cbn [bind]. rewrite H. destruct (replace (ed_state e) r); reflexivity. }
    destruct c as [v|v|v|x|name v|name v|name v]; cbn [apply_edit value_edit];
      unfold set_probabilities, set_residuals, set_iterations, set_epsilon, set_accumulator, set_defaults, set_updates; apply Fin;
      change (ed_state (value_editor e)) with (values (ed_state e));
      try reflexivity; rewrite ?probability_values, ?natural_values, ?like_values, ?updates_values; try reflexivity.
    - change (accumulators (values (ed_state e))) with (move_dict (N := DualNum) (M := QcNum) fst (accumulators (ed_state e))). rewrite <- dset_values. reflexivity.
    - change (defaults (values (ed_state e))) with (move_dict (N := DualNum) (M := QcNum) fst (defaults (ed_state e))). rewrite <- dset_values. reflexivity.
    - change (updates (values (ed_state e))) with (move_dict (N := DualNum) (M := QcNum) fst (updates (ed_state e))). rewrite <- dset_values. reflexivity. }
  split; [|intros c; apply One]. revert e. induction cs as [|c cs IH]; intros e; [reflexivity|].
  cbn [map]. unfold editing in *. cbn [fold_left]. rewrite <- IH. f_equal. unfold after_edit. rewrite One. now destruct (apply_edit e c).
Qed.
Print Assumptions C94_edits.

Lemma compare_values (f : Qc -> Qc -> bool) (a b : array DualNum) :
  tbin f (a_ten (value_array a)) (a_ten (value_array b)) = tbin (fun x y : dual => f (fst x) (fst y)) (a_ten a) (a_ten b).
Proof.
  assert (X : forall a : array DualNum, rten (fun (x : dual) (y : Qc) => y = fst x) (a_ten a) (a_ten (value_array a))).
  { assert (M : forall l : list dual, Forall2 (fun (x : dual) (y : Qc) => y = fst x) l (map fst l)) by (induction l; constructor; auto).
    intros x. split; [reflexivity|]. apply M. }
  pose (R := fun (x : dual) (y : Qc) => y = fst x).
  assert (H : rr (rten eq) (tbin (fun x y : dual => f (fst x) (fst y)) (a_ten a) (a_ten b)) (tbin f (a_ten (value_array a)) (a_ten (value_array b)))).
  { apply (rt_tbin R R eq); [|exact (X a)|exact (X b)]. unfold R. intros x y z w -> ->. reflexivity. }
  revert H. generalize (tbin f (a_ten (value_array a)) (a_ten (value_array b))) (tbin (fun x y : dual => f (fst x) (fst y)) (a_ten a) (a_ten b)).
  intros [x|k] [y|k'] H; cbn in H; try contradiction; [|congruence]. f_equal. symmetry. now apply rt_eq.
Qed.
Theorem C94_comparisons (use_allclose : bool) (t1 t2 : tree (eleaf DualNum)) :
  are_pytrees_equal use_allclose (tmap value_leaf t1) (tmap value_leaf t2) = are_pytrees_equal use_allclose t1 t2.
Proof.
  assert (L : forall l1 l2, are_leaves_equal use_allclose (value_leaf l1) (value_leaf l2) = are_leaves_equal use_allclose l1 l2).
  { intros [n1 a1|y1 c1] [n2 a2|y2 c2]; cbn [value_leaf are_leaves_equal]; try reflexivity. destruct (negb (Bool.eqb n1 n2)); [reflexivity|].
    destruct use_allclose; unfold allclose, all_eq; cbn [v_close v_eqb QcNum DualNum]; now rewrite compare_values. }
  unfold are_pytrees_equal, merge_pytrees. rewrite structure_tmap, !leaves_tmap, !map_length.
  destruct (Nat.eqb _ _); cbn [guard bind]; [|reflexivity].
  assert (M : forall x y, mapM2 (are_leaves_equal use_allclose) (map value_leaf x) (map value_leaf y) = mapM2 (are_leaves_equal use_allclose) x y).
  { induction x as [|l x IH]; intros [|m y]; cbn; try reflexivity. rewrite L. destruct (are_leaves_equal _ _ _); cbn [bind]; [|reflexivity]. now rewrite IH. }
  now rewrite M.
Qed.
Print Assumptions C94_comparisons.
(** Setters called on pairs with tangents: halting probabilities 0 and 1 that move are accepted (the values are
    in range), 6/5 is refused whatever its tangent; arrays with equal values and other tangents are equal. *)
Definition moving (xs : list dual) : array DualNum := mkA (N := DualNum) DF32 (mkT [2] xs).
Definition ed_d : editor DualNum := mkEd ctl_d m_standard.
Definition accepted (r : res (editor DualNum)) : bool := match r with Ok _ => true | Err _ => false end.
Example C94_edits_case :
  accepted (apply_edit ed_d (EProbabilities (moving [(0%Qc, q (-3) 1); (1%Qc, q 2 1)]))) = true /\
  accepted (apply_edit ed_d (EProbabilities (moving [(q 6 5, q (-3) 1); (1%Qc, q 2 1)]))) = false /\
  accepted (apply_edit ed_d (EIterations (moving [(0%Qc, q (-3) 1); (q 2 1, 0%Qc)]))) = true.
Proof. split; [vm_compute; reflexivity|]. split; [vm_compute; reflexivity|]. vm_compute; reflexivity. Qed.
Example C94_comparisons_case :
  are_pytrees_equal false (Leaf (EArr false (moving [(0%Qc, q 1 1); (1%Qc, q 2 1)]))) (Leaf (EArr false (moving [(0%Qc, q 5 1); (1%Qc, 0%Qc)]))) = Ok true /\
  are_pytrees_equal false (Leaf (EArr false (moving [(0%Qc, q 1 1); (1%Qc, q 2 1)]))) (Leaf (EArr false (moving [(0%Qc, q 1 1); (q 2 1, q 2 1)]))) = Ok false.
Proof. split; vm_compute; reflexivity. Qed.
