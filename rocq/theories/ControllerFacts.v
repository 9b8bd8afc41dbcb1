(** * What the controller's methods compute, for every arithmetic. *)
From Verif Require Import Base PyTree Tensor Num Utils States Controller Wf.
From Verif Require Import BaseFacts PyTreeFacts TensorFacts.

Lemma dtype_eqb_eq a b : dtype_eqb a b = true <-> a = b.
Proof. unfold dtype_eqb; destruct (dtype_eq_dec a b); split; congruence. Qed.
Lemma dtype_eqb_refl a : dtype_eqb a a = true.
Proof. now apply dtype_eqb_eq. Qed.
Lemma floating_weak_float d : is_floating d = true -> weak_float d = d.
Proof. now destruct d. Qed.
Lemma floating_weak_int d : is_floating d = true -> weak_int d = d.
Proof. now destruct d. Qed.
Lemma weak_float_floating d : is_floating (weak_float d) = true.
Proof. now destruct d. Qed.
Lemma promote_same d : promote d d = d.
Proof. now destruct d. Qed.
Lemma weak_float_idem d : weak_float (weak_float d) = weak_float d.
Proof. now destruct d. Qed.

Lemma unsqueeze_loop_data {A} n (t : tensor A) : data (unsqueeze_loop n t) = data t.
Proof. revert t; induction n as [|n IH]; intros t; simpl; [reflexivity|]. now rewrite IH. Qed.
Lemma unsqueeze_loop_shape {A} n (t : tensor A) : shape (unsqueeze_loop n t) = shape t ++ repeat 1 n.
Proof.
  revert t; induction n as [|n IH]; intros t; simpl; [now rewrite app_nil_r|].
  rewrite IH. simpl. now rewrite <- app_assoc.
Qed.

Lemma slb_ok {A} (t : tensor A) R :
  exists t', setup_left_broadcast t (shape t ++ R) = Ok t' /\ data t' = data t
             /\ lifted (shape t) R (shape t').
Proof.
  unfold setup_left_broadcast, ndim. destruct (Nat.eqb_spec (length (shape t)) 0) as [H|H].
  - exists t. repeat split. right. destruct (shape t); [auto|discriminate].
  - rewrite app_length.
    destruct (Nat.leb_spec (length (shape t)) (length (shape t) + length R)); [|lia].
    cbn [guard bind]. eexists; split; [reflexivity|]. split; [apply unsqueeze_loop_data|].
    left. rewrite unsqueeze_loop_shape. f_equal. f_equal. lia.
Qed.

Ltac twf_solve :=
  unfold twf, tnot, gt_scl, tensor_map; cbn [shape data a_ten];
  repeat (rewrite ?map_length, ?map2_length, ?sel_length); lia.

Section Controller.
  Context {N : numsys}.
  Notation st := (state N).
  Notation tr := (tree (array N)).

  Lemma halted_shape (s : st) : shape (halted_batches s) = batch_shape s.
  Proof. reflexivity. Qed.
  Lemma halted_data (s : st) :
    data (halted_batches s) = map (halted_at s) (a_data (probabilities s)).
  Proof. reflexivity. Qed.
  Lemma halted_length (s : st) : wf s -> length (data (halted_batches s)) = size (batch_shape s).
  Proof. intros H. rewrite halted_data, map_length. apply (wf_p _ H). Qed.

  (** ** Probabilities *)
  Definition weights (s : st) (h : array N) : list (val N) :=
    map2 (weight s) (a_data (probabilities s)) (a_data h).

  Lemma map2_map_l {A B C D} (f : A -> B -> C) (g : D -> A) l1 l2 :
    map2 f (map g l1) l2 = map2 (fun x y => f (g x) y) l1 l2.
  Proof. revert l2; induction l1; intros [|]; simpl; auto. now f_equal. Qed.
  Lemma map2_map_r {A B C D} (f : A -> B -> C) (g : D -> B) l1 l2 :
    map2 f l1 (map g l2) = map2 (fun x y => f x (g y)) l1 l2.
  Proof. revert l2; induction l1; intros [|]; simpl; auto. now f_equal. Qed.
  Lemma map_map2 {A B C D} (f : C -> D) (g : A -> B -> C) l1 l2 :
    map f (map2 g l1 l2) = map2 (fun x y => f (g x y)) l1 l2.
  Proof. revert l2; induction l1; intros [|]; simpl; auto. now f_equal. Qed.

  Theorem process_probabilities_char (s : st) (h : array N) :
    wf s -> awf h -> a_shape h = batch_shape s ->
    process_probabilities s (a_clip01 h) =
    if dtype_eqb (a_dt (probabilities s)) (weak_float (a_dt h)) then
      let d := a_dt (probabilities s) in
      let B := batch_shape s in
      let P := a_data (probabilities s) in
      let H := a_data h in
      Ok (mkA d (mkT B (weights s h)),
          mkA d (mkT B (map2 (fun pr h => next_r s (fst pr) (snd pr) h)
                             (combine P (a_data (residuals s))) H)),
          mkA d (mkT B (map2 (next_p s) P H)))
    else Err JaxError.
  Proof.
    intros Hwf Hh Hsh. destruct s as [eps its ress probs dfs accs upds dep em].
    destruct Hwf as [Hp Hr Hi Hrs His Hpf Hrd Hif _ _ _ _ _ _ _].
    unfold batch_shape in *. cbn [probabilities residuals iterations] in *.
    destruct probs as [pd [pB P]], ress as [rd [rB R]], h as [hd [hB H]].
    unfold awf, twf, a_shape in *. cbn [a_ten a_dt shape data] in *. subst hB rB rd.
    unfold process_probabilities, a_scale, a_clip01, a_add, a_bin, gt_scl, halted_batches,
      halt_threshold, a_one_minus, tnot.
    cbn [probabilities residuals epsilon depression_constant a_ten a_dt shape data tensor_map].
    rewrite tbin_same; cbn [shape data]; [|twf_solve..|reflexivity].
    cbn [bind a_dt a_ten shape data].
    unfold tensor_map at 1 2 3. cbn [a_ten a_dt shape data].
    rewrite tbin_same; cbn [shape data];
      [|twf_solve..|reflexivity].
    cbn [bind]. unfold a_select. cbn [a_dt a_ten].
    rewrite (floating_weak_int _ Hpf), dtype_eqb_refl.
    rewrite tselect_same; [|reflexivity..]. cbn [bind]. rewrite weak_float_idem.
    destruct (dtype_eqb pd (weak_float hd)) eqn:Ed; [|reflexivity].
    clear Ed.
    rewrite tselect_same; [|reflexivity..]. cbn [bind a_dt a_ten shape data tensor_map].
    set (ss := mkState eps its {| a_dt := pd; a_ten := {| shape := pB; data := R |} |}
                 {| a_dt := pd; a_ten := {| shape := pB; data := P |} |} dfs accs upds dep em).
    assert (Ew : sel (map (fun v => v_ltb N (v_of_scl N (s_one_sub N eps)) v)
                  (map2 (v_add N)
                     (map (v_mul N (v_of_scl N dep))
                        (map (fun v => v_min N (v_one N) (v_max N (v_zero N) v)) H)) P))
                 (map (v_sub N (v_one N)) P)
                 (map (v_mul N (v_of_scl N dep))
                    (map (fun v => v_min N (v_one N) (v_max N (v_zero N) v)) H))
              = map2 (weight ss) P H).
    { clear. revert H. induction P as [|p P IH]; intros [|h H]; try reflexivity.
      cbn [map map2 sel]. f_equal. apply IH. }
    rewrite Ew.
    rewrite tbin_same; cbn [shape data];
      [|twf_solve..|reflexivity].
    cbn [bind]. rewrite promote_same. unfold weights, a_data. cbn [probabilities residuals a_ten data ss].
    f_equal. f_equal; [f_equal|].
    - f_equal. f_equal. clear Ew. subst ss.
      unfold next_r, halts_now, halted_at, scaled, threshold, clip01, gt_scl, tensor_map.
      cbn [epsilon depression_constant data a_ten shape].
      assert (HR : length R = length P) by congruence.
      assert (HH : length H = length P) by congruence.
      clear -HR HH. revert R H HR HH. induction P as [|p P IH]; intros [|r R] [|h H] HR HH;
        try discriminate; try reflexivity.
      cbn [map map2 sel combine]. f_equal. apply IH; simpl in *; congruence.
    - f_equal. f_equal. clear. revert H. induction P as [|p P IH]; intros [|h H]; try reflexivity.
      cbn [map2]. f_equal. apply IH.
  Qed.

  (** ** One leaf of an accumulator *)
  Definition new_leaf (s : st) (w : list (val N)) (k : nat) (acc upd : array N) : list (val N) :=
    sel (expand k (map (halted_at s) (a_data (probabilities s))))
        (a_data acc)
        (map2 (v_add N) (a_data acc) (map2 (v_mul N) (expand k w) (a_data upd))).

  Theorem update_accumulator_char (s : st) d w (acc upd : array N) R :
    awf (probabilities s) -> length w = size (batch_shape s) ->
    awf acc -> awf upd -> a_shape acc = batch_shape s ++ R ->
    update_accumulator s (mkA d (mkT (batch_shape s) w)) acc upd =
    if shape_eqb (a_shape acc) (a_shape upd) then
      if dtype_eqb (a_dt acc) (promote (a_dt acc) (promote d (a_dt upd))) then
        Ok (mkA (a_dt acc) (mkT (a_shape acc) (new_leaf s w (size R) acc upd)))
      else Err JaxError
    else Err RuntimeError.
  Proof.
    intros Hp Hw Ha Hu Hs. unfold update_accumulator. cbn [a_ten a_dt].
    destruct (shape_eqb (a_shape acc) (a_shape upd)) eqn:Es; [|reflexivity].
    apply shape_eqb_eq in Es. cbn [guard bind]. rewrite Hs.
    destruct (slb_ok (mkT (batch_shape s) w) R) as (h' & Hh' & Hhd & Hhl). cbn [shape data] in *.
    rewrite Hh'. cbn [bind].
    destruct (slb_ok (halted_batches s) R) as (b' & Hb' & Hbd & Hbl).
    rewrite halted_shape in Hb', Hbl. rewrite Hb'. cbn [bind].
    rewrite (lifted_broadcast_to _ _ _ Hbl)
      by (rewrite Hbd, halted_data, map_length; exact Hp).
    cbn [bind]. unfold a_mul, a_bin. cbn [a_ten a_dt].
    rewrite (tbin_lifted_l _ (batch_shape s) R)
      by (try exact Hhl; try exact Hu; try (rewrite Hhd; exact Hw);
          unfold a_shape in *; congruence).
    cbn [bind]. unfold a_add, a_bin. cbn [a_ten a_dt].
    assert (Hul : length (data (a_ten upd)) = size (batch_shape s) * size R).
    { unfold awf, twf in Hu. rewrite Hu. fold (a_shape upd). rewrite <- Es, Hs. apply size_app. }
    rewrite tbin_same.
    2:{ exact Ha. }
    2:{ unfold twf. cbn [data shape]. rewrite map2_length, expand_length, Hhd, Hul, size_app, Hw. lia. }
    2:{ exact Hs. }
    cbn [bind]. unfold a_select. cbn [a_dt a_ten].
    destruct (dtype_eqb (a_dt acc) _); [|reflexivity].
    rewrite tselect_same by (cbn [shape]; unfold a_shape in *; congruence).
    cbn [bind shape data]. unfold new_leaf, a_data. rewrite Hbd, Hhd, halted_data.
    unfold a_shape in Hs. rewrite Hs. reflexivity.
  Qed.

  Lemma new_leaf_length (s : st) w k acc upd :
    awf (probabilities s) -> length w = size (batch_shape s) ->
    length (a_data acc) = size (batch_shape s) * k -> length (a_data upd) = length (a_data acc) ->
    length (new_leaf s w k acc upd) = length (a_data acc).
  Proof.
    intros Hp Hw Ha Hu. unfold new_leaf.
    rewrite sel_length, !map2_length, !expand_length, map_length.
    assert (length (a_data (probabilities s)) = size (batch_shape s)) as -> by exact Hp.
    lia.
  Qed.

  Lemma new_leaf_nth (s : st) h k (acc upd : array N) j a u :
    0 < k ->
    nth_error (a_data acc) j = Some a -> nth_error (a_data upd) j = Some u ->
    nth_error (new_leaf s (weights s h) k acc upd) j =
    match nth_error (a_data (probabilities s)) (j / k), nth_error (a_data h) (j / k) with
    | Some p, Some hv => Some (next_a s p hv a u)
    | _, _ => None
    end.
  Proof.
    intros Hk Ha Hu. unfold new_leaf, weights.
    rewrite nth_error_sel, !nth_error_map2, !nth_error_expand by assumption.
    rewrite nth_error_map, nth_error_map2, Ha, Hu.
    destruct (nth_error (a_data (probabilities s)) (j / k)) as [p|]; [|reflexivity].
    destruct (nth_error (a_data h) (j / k)); reflexivity.
  Qed.

  (** ** merge_pytrees *)
  Lemma merge_ok_iff {A B C} (f : A -> B -> res C) t1 t2 t3 :
    merge_pytrees f t1 t2 = Ok t3 <->
    length (leaves t1) = length (leaves t2) /\ structure t3 = structure t1 /\
    (forall i x y, nth_error (leaves t1) i = Some x -> nth_error (leaves t2) i = Some y ->
       exists z, f x y = Ok z /\ nth_error (leaves t3) i = Some z).
  Proof.
    unfold merge_pytrees. split.
    - intros H. inv_bind H. apply guard_ok in E. apply Nat.eqb_eq in E. inv_bind H.
      apply unflatten_inv in H as [Hs Hl]. apply mapM2_ok_iff in E0; [|assumption].
      subst. destruct E0 as [_ E0]. auto.
    - intros (Hl & Hs & Hf). rewrite (proj2 (Nat.eqb_eq _ _) Hl). cbn [guard bind].
      rewrite (proj2 (mapM2_ok_iff f _ _ (leaves t3) Hl)).
      + cbn [bind]. rewrite <- Hs. apply unflatten_leaves.
      + split; [now apply structure_eq_length|assumption].
  Qed.
  Lemma merge_total {A B C} (f : A -> B -> res C) t1 t2 :
    length (leaves t1) = length (leaves t2) ->
    (forall i x y, nth_error (leaves t1) i = Some x -> nth_error (leaves t2) i = Some y ->
       exists z, f x y = Ok z) ->
    exists t3, merge_pytrees f t1 t2 = Ok t3.
  Proof.
    intros Hl Hf. unfold merge_pytrees. rewrite (proj2 (Nat.eqb_eq _ _) Hl). cbn [guard bind].
    destruct (mapM2_total f _ _ Hf) as [l3 Hl3]. rewrite Hl3. cbn [bind].
    destruct (unflatten_ok (structure t1) l3) as (t & Ht & _); [|eauto].
    apply mapM2_length in Hl3. rewrite Hl3, length_leaves_structure. lia.
  Qed.

  (** ** The loop over accumulators *)
  Lemma iterate_loop_inv (s : st) h names accs upds accs' upds' :
    NoDup names -> iterate_loop s h names accs upds = Ok (accs', upds') ->
    dkeys accs' = dkeys accs /\ dkeys upds' = dkeys upds /\
    forall k,
      if in_dec string_dec k names then
        exists acc upd new, dget k accs = Some acc /\ dget k upds = Some upd /\ is_none upd = false
          /\ merge_pytrees (update_accumulator s h) acc upd = Ok new
          /\ dget k accs' = Some new /\ dget k upds' = Some tnone
      else dget k accs' = dget k accs /\ dget k upds' = dget k upds.
  Proof.
    revert accs upds. induction names as [|n names IH]; intros accs upds Hn H; simpl in H.
    - inversion H; subst. split; [reflexivity|]. split; [reflexivity|]. intros k. destruct (in_dec string_dec k []) as [[]|]; auto.
    - inversion Hn as [|? ? Hni Hn']; subst.
      inv_bind H. destruct a as [accs1 upds1]. apply rewrap_ok in E.
      inv_bind E. inv_bind E. inv_bind E. inv_bind E. inversion E; subst accs1 upds1.
      apply dlookup_ok in E0. apply dlookup_ok in E1. apply guard_ok in E2.
      apply negb_true_iff in E2.
      destruct (IH _ _ Hn' H) as (K1 & K2 & Hk).
      rewrite K1, K2. rewrite !dkeys_dset_in by (apply dget_keys; eauto).
      split; [reflexivity|]. split; [reflexivity|]. intros k. specialize (Hk k).
      destruct (in_dec string_dec k (n :: names)) as [Hin|Hnin].
      + destruct (string_dec k n) as [->|Hkn].
        * destruct (in_dec string_dec n names) as [|_]; [contradiction|].
          rewrite !dget_dset_eq in Hk. exists a, a0, a2. intuition.
        * destruct (in_dec string_dec k names) as [Hi|Hi];
            [|destruct Hin; [congruence|contradiction]].
          rewrite !dget_dset_neq in Hk by assumption. exact Hk.
      + destruct (in_dec string_dec k names) as [Hi|Hi]; [exfalso; apply Hnin; now right|].
        rewrite !dget_dset_neq in Hk by (intros ->; apply Hnin; now left). exact Hk.
  Qed.
  Lemma iterate_loop_total (s : st) h names accs upds :
    NoDup names ->
    (forall k, In k names -> exists acc upd new, dget k accs = Some acc /\ dget k upds = Some upd
       /\ is_none upd = false /\ merge_pytrees (update_accumulator s h) acc upd = Ok new) ->
    exists accs' upds', iterate_loop s h names accs upds = Ok (accs', upds').
  Proof.
    revert accs upds. induction names as [|n names IH]; intros accs upds Hn H; simpl; [eauto|].
    inversion Hn as [|? ? Hni Hn']; subst.
    destruct (H n (or_introl eq_refl)) as (acc & upd & new & Ha & Hu & Hz & Hm).
    unfold dlookup. rewrite Ha, Hu. cbn [bind]. rewrite Hz. cbn [bind negb guard]. rewrite Hm. cbn [bind rewrap].
    apply IH; [assumption|]. intros k Hk.
    destruct (H k (or_intror Hk)) as (acc' & upd' & new' & H1 & H2 & H3 & H4).
    exists acc', upd', new'.
    assert (k <> n) by (intros ->; contradiction).
    rewrite !dget_dset_neq by assumption. auto.
  Qed.
  Lemma iterate_loop_err (s : st) h names accs upds e :
    iterate_loop s h names accs upds = Err e -> e = RuntimeError.
  Proof.
    revert accs upds. induction names as [|n names IH]; intros accs upds H; simpl in H; [discriminate|].
    destruct (rewrap RuntimeError _) as [[a u]|e'] eqn:E; cbn [bind] in H.
    - eauto.
    - apply rewrap_err in E. congruence.
  Qed.
End Controller.
