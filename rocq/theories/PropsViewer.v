(** * Properties of the viewer (C28, C30 - C32; C29 is in PropsFloat.v). Vocabulary: ViewerSpec.v. *)
From Coq Require Import QArith Qcanon.
From Verif Require Import Base PyTree Tensor Num Utils States Controller Builder Viewer Wf ViewerSpec History ElementSpec BuilderSpec.
From Verif Require Import BaseFacts TensorFacts PyTreeFacts ControllerFacts IterateFacts ResetFacts HistoryFacts
  QcFacts GravesFacts BuilderFacts ViewerFacts Samples.
Close Scope Qc_scope. Close Scope Q_scope. Open Scope string_scope. Open Scope list_scope. Open Scope nat_scope.

Notation "a .[ i ]" := (nth_error (a_data a) i) (at level 2, format "a .[ i ]").
Definition raised {A} (r : res A) : option exn := match r with Err e => Some e | Ok _ => None end.
Ltac vm := vm_compute; reflexivity.

(** ** C28 *)
Theorem C28_masking (s : qst) (dt : dtype) (m : tensor bool) :
  wf s -> twf m ->
  (dt <> DBool \/ shape m <> batch_shape s -> mask_data s dt m = Err ValueError) /\
  (dt = DBool -> shape m = batch_shape s ->
   exists s', mask_data s dt m = Ok s' /\ viewed (masked (N := QcNum) 0%Qc (batch_shape s) (data m)) s s' /\ wf s').
Proof.
  intros W Wm. split; [apply mask_err|]. intros -> Hs. eexists. split; [now apply mask_ok|].
  assert (L : length (data m) = size (batch_shape s)) by (rewrite <- Hs; exact Wm).
  split.
  - apply mapped_viewed. intros x Hx. destruct (wf_tensor s x W Hx) as [A R]. now apply mask_fun_masked.
  - apply mapped_wf; [exact W|]. intros x Hx. destruct (wf_tensor s x W Hx) as [A [R HR]].
    split; [reflexivity|]. exact (mask_fun_awf _ _ x R A HR L).
Qed.
Print Assumptions C28_masking.
(** In any arithmetic an entry is multiplied by one or zero. *)
Theorem C28_masking_any_arithmetic {N} (s : state N) (m : tensor bool) :
  wf s -> twf m -> shape m = batch_shape s ->
  exists s', mask_data s DBool m = Ok s' /\
    forall p a, tensor_at s p = Some a -> exists a', tensor_at s' p = Some a' /\ sig a' = sig a /\
      forall R, a_shape a = batch_shape s ++ R -> forall j v, a.[j] = Some v ->
      exists b, nth_error (data m) (j / size R) = Some b /\
        a'.[j] = Some (v_mul N (if b then v_one N else v_zero N) v).
Proof.
  intros W Wm Hs. eexists. split; [now apply mask_ok|].
  assert (L : length (data m) = size (batch_shape s)) by (rewrite <- Hs; exact Wm).
  intros p a Ha. exists (mask_fun (batch_shape s) (data m) a).
  assert (In a (tensors s)) as Hin.
  { destruct p as [| | |k l|k l]; cbn [tensor_at] in Ha; try (injection Ha as <-; cbn; auto; fail).
    - destruct (dget k (accumulators s)) as [t|] eqn:E; [|discriminate]. do 3 right. apply in_or_app. left.
      eapply in_dict_tensors; [apply dget_In; exact E|eapply nth_error_In; exact Ha].
    - destruct (dget k (defaults s)) as [t|] eqn:E; [|discriminate]. do 3 right. apply in_or_app. right.
      eapply in_dict_tensors; [apply dget_In; exact E|eapply nth_error_In; exact Ha]. }
  split; [|split; [reflexivity|]].
  - destruct p as [| | |k l|k l]; cbn [tensor_at] in Ha |- *; try (injection Ha as <-; reflexivity);
      cbn [mapped accumulators defaults]; rewrite dget_dmap.
    + destruct (dget k (accumulators s)); [|discriminate]. cbn [option_map]. rewrite leaves_tmap. now apply map_nth_error.
    + destruct (dget k (defaults s)); [|discriminate]. cbn [option_map]. rewrite leaves_tmap. now apply map_nth_error.
  - intros R HR j v Hv. destruct (wf_tensor s a W Hin) as [A _].
    exact (mask_fun_nth _ _ a R j v A HR L Hv).
Qed.
Print Assumptions C28_masking_any_arithmetic.
Definition mask_tf : tensor bool := mkT [2] [true; false].
Example C28_case : wf ctl2 /\ twf mask_tf /\ shape mask_tf = batch_shape ctl2 /\
  raised (mask_data ctl2 DInt32 mask_tf) = Some ValueError /\
  raised (mask_data ctl2 DBool (mkT [1] [true])) = Some ValueError /\ is_ok (mask_data ctl2 DBool mask_tf) = true.
Proof. destruct ctl2_ok as [W _]. split; [exact W|]. split; [reflexivity|]. split; [vm|]. repeat split; vm. Qed.

(** ** C30 *)
Theorem C30_partition (s : qst) :
  wf s -> exists sh su, halted_only s = Ok sh /\ unhalted_only s = Ok su /\
  forall p a, tensor_at s p = Some a ->
  exists x y, tensor_at sh p = Some x /\ tensor_at su p = Some y /\ sig x = sig a /\ sig y = sig a /\
    forall R, a_shape a = batch_shape s ++ R -> forall j v, a.[j] = Some v ->
    exists q vx vy, (probabilities s).[j / size R] = Some q /\ x.[j] = Some vx /\ y.[j] = Some vy /\
      (vx + vy = v)%Qc /\
      (1 - epsilon s < q -> vy = 0)%Qc /\ (q <= 1 - epsilon s -> vx = 0)%Qc.
Proof.
  intros W.
  assert (Wh : twf (halted_batches s)) by (unfold twf; rewrite (halted_length s W), halted_shape; reflexivity).
  assert (Wu : twf (tnot (halted_batches s))) by (apply twf_map; exact Wh).
  destruct (C28_masking_any_arithmetic s _ W Wh (halted_shape s)) as (sh & Hh & Eh).
  destruct (C28_masking_any_arithmetic s _ W Wu (halted_shape s)) as (su & Hu & Eu).
  exists sh, su. split; [exact Hh|]. split; [exact Hu|]. intros p a Ha.
  destruct (Eh p a Ha) as (x & Hx & Sx & Dx). destruct (Eu p a Ha) as (y & Hy & Sy & Dy).
  exists x, y. repeat (split; [assumption|]). intros R HR j v Hv.
  destruct (Dx R HR j v Hv) as (b & Hb & Ex). destruct (Dy R HR j v Hv) as (c & Hc & Ey).
  unfold tnot, tensor_map in Hc. cbn [data] in Hc. rewrite nth_error_map, Hb in Hc. cbn in Hc. injection Hc as <-.
  rewrite halted_data, nth_error_map in Hb. destruct (nth_error (a_data (probabilities s)) (j / size R)) as [q|] eqn:Eq; [|discriminate].
  cbn [option_map] in Hb. exists q. assert (B : halted_at s q = b) by congruence. clear Hb.
  unfold halted_at, threshold in B. cbn [v_ltb v_of_scl s_one_sub QcNum] in B. unfold Qcltb in B.
  do 2 eexists. split; [reflexivity|]. split; [exact Ex|]. split; [exact Ey|].
  cbn [v_mul v_one v_zero QcNum]. destruct (Qclt_le_dec (1 - epsilon s) q) as [Lt|Le]; subst b; cbn [negb].
  - split; [rewrite Qcmult_1_l, Qcmult_0_l; apply Qcplus_0_r|]. split; intros G; [apply Qcmult_0_l|].
    exfalso. revert Lt G. qc.
  - split; [rewrite Qcmult_1_l, Qcmult_0_l; apply Qcplus_0_l|]. split; intros G; [|apply Qcmult_0_l].
    exfalso. revert Le G. qc.
Qed.
Print Assumptions C30_partition.
Example C30_case : wf ctl2 /\ (exists a, tensor_at ctl2 (PAccumulator "y" 1) = Some a).
Proof. destruct ctl2_ok as [W _]. split; [exact W|]. eexists. reflexivity. Qed.

(** ** C31 *)
(** [transform] discards the pending updates: every slot then shows the transformed default. *)
Theorem C31_refuted {N} (s s' : state N) (f : array N -> res (array N)) :
  wf s -> transform s f = Ok s' ->
  (forall k d, dget k (defaults s) = Some d ->
     exists u, dget k (updates s') = Some u /\ tree_rel (fun x y => f x = Ok y) d u) /\
  (* so an empty slot (None) of a tensor accumulator looks pending afterwards *)
  (forall k a, dget k (accumulators s) = Some (Leaf a) -> dget k (updates s) = Some tnone ->
     exists u, dget k (updates s') = Some u /\ is_none u = false).
Proof.
  intros W H. destruct (transform_inv s s' f H) as (_ & V & _ & U).
  assert (Main : forall k d, dget k (defaults s) = Some d ->
     exists u, dget k (updates s') = Some u /\ tree_rel (fun x y => f x = Ok y) d u).
  { intros k d Hd. destruct (v_defs _ _ _ V) as [Kd Rd].
    assert (Hk : In k (dkeys (defaults s'))) by (rewrite Kd; apply dget_keys; eauto).
    apply dget_keys in Hk as [u Hu]. exists u. rewrite U. split; [exact Hu|]. exact (Rd k d u Hd Hu). }
  split; [exact Main|]. intros k a Ha _. destruct (default_of s k _ W Ha) as (d & Hd & Al & _).
  destruct (Main k d Hd) as (u & Hu & Ru). exists u. split; [exact Hu|].
  destruct Ru as [Ru _]. destruct Al as [Al _]. rewrite <- Al in Ru. now rewrite (is_none_structure _ _ Ru).
Qed.
Print Assumptions C31_refuted.
(** Everything else is shown through the function; it raises, always RuntimeError, iff the
    function fails on some tensor. *)
Theorem C31_partial {N} (s : state N) (f : array N -> res (array N)) :
  (forall s', transform s f = Ok s' -> viewed (fun x y => f x = Ok y) s s') /\
  (forall e, transform s f = Err e -> e = RuntimeError) /\
  ((exists s', transform s f = Ok s') <-> forall x, In x (tensors s) -> exists y, f x = Ok y).
Proof.
  split; [intros s' H; exact (proj1 (proj2 (transform_inv s s' f H)))|].
  split; [intros e; apply transform_err|]. split; [|apply transform_total].
  intros [s' H]. exact (proj1 (transform_inv s s' f H)).
Qed.
Print Assumptions C31_partial.
Definition half_all (a : array QcNum) : res (array QcNum) := Ok (a_scale (N := QcNum) (q 1 2) a).
Example C31_case : is_ok (transform ctl1 half_all) = true /\
  option_map is_none (dget "x" (updates ctl1)) = Some true /\ has_cached_updates ctl1 = false /\
  match transform ctl1 half_all with
  | Ok s' => option_map is_none (dget "x" (updates s')) = Some false /\ has_cached_updates s' = true
  | Err _ => False
  end.
Proof. repeat split; vm. Qed.

(** ** C32 *)
Definition mask_and (m1 m2 : tensor bool) : tensor bool := mkT (shape m1) (map2 andb (data m1) (data m2)).
Theorem C32_masks_compose (s : qst) (m1 m2 : tensor bool) :
  wf s -> twf m1 -> twf m2 -> shape m1 = batch_shape s -> shape m2 = batch_shape s ->
  (x <- mask_data s DBool m1 ;; mask_data x DBool m2) = mask_data s DBool (mask_and m1 m2).
Proof.
  intros W W1 W2 H1 H2.
  assert (L1 : length (data m1) = size (batch_shape s)) by (rewrite <- H1; exact W1).
  assert (L2 : length (data m2) = size (batch_shape s)) by (rewrite <- H2; exact W2).
  assert (W12 : twf (mask_and m1 m2)).
  { unfold twf, mask_and. cbn [shape data]. rewrite map2_length, H1. lia. }
  rewrite (mask_ok s m1 W W1 H1), (mask_ok s _ W W12 H1). cbn [bind].
  assert (W' : wf (mapped (mask_fun (batch_shape s) (data m1)) s)).
  { apply mapped_wf; [exact W|]. intros x Hx. destruct (wf_tensor s x W Hx) as [A [R HR]].
    split; [reflexivity|]. exact (mask_fun_awf _ _ x R A HR L1). }
  rewrite (mask_ok _ m2 W' W2 H2). change (batch_shape (mapped (mask_fun (batch_shape s) (data m1)) s)) with (batch_shape s).
  rewrite mapped_mapped. f_equal. apply mapped_ext. intros x Hx. destruct (wf_tensor s x W Hx) as [A R].
  now apply mask_fun_mask_fun.
Qed.
Print Assumptions C32_masks_compose.
Theorem C32_mask_idempotent (s : qst) (m : tensor bool) :
  wf s -> twf m -> shape m = batch_shape s ->
  (x <- mask_data s DBool m ;; mask_data x DBool m) = mask_data s DBool m.
Proof.
  intros W Wm H. rewrite (C32_masks_compose s m m W Wm Wm H H). f_equal. destruct m as [sh d]. unfold mask_and. cbn.
  f_equal. clear. induction d as [|b d IH]; cbn; [reflexivity|]. rewrite IH. now destruct b.
Qed.
Print Assumptions C32_mask_idempotent.
(** halting views of a view: masking does not commute with deciding who halted, but viewing the
    halted part and then masking with the complement shows zeros only *)
Theorem C32_complement_shows_nothing (s s' : qst) (m : tensor bool) :
  wf s -> twf m -> shape m = batch_shape s ->
  (x <- mask_data s DBool m ;; mask_data x DBool (tnot m)) = Ok s' ->
  forall p a', tensor_at s' p = Some a' -> Forall (eq 0%Qc) (a_data a').
Proof.
  intros W Wm H E. assert (Wn : twf (tnot m)) by (apply twf_map; exact Wm).
  rewrite (C32_masks_compose s m (tnot m) W Wm Wn H H) in E.
  assert (W12 : twf (mask_and m (tnot m))).
  { unfold twf, mask_and, tnot, tensor_map. cbn [shape data]. rewrite map2_length, map_length. unfold twf in Wm. lia. }
  rewrite (mask_ok s _ W W12 H) in E. injection E as <-.
  assert (Z : forall j b, nth_error (data (mask_and m (tnot m))) j = Some b -> b = false).
  { intros j b. unfold mask_and, tnot, tensor_map. cbn [data]. rewrite nth_error_map2, nth_error_map.
    destruct (nth_error (data m) j) as [c|]; cbn; [|discriminate]. intros [= <-]. now destruct c. }
  assert (L : length (data (mask_and m (tnot m))) = size (batch_shape s)) by (rewrite <- H; exact W12).
  assert (T : forall a, In a (tensors s) -> Forall (eq 0%Qc) (a_data (mask_fun (batch_shape s) (data (mask_and m (tnot m))) a))).
  { intros a Ha. destruct (wf_tensor s a W Ha) as [A [R HR]]. apply Forall_forall. intros v Hv.
    apply In_nth_error in Hv as [j Hj].
    assert (Hlen : j < length (a_data a)) by (rewrite <- (mask_fun_length (batch_shape s) _ a R A HR L); eapply nth_error_some_lt; exact Hj).
    apply nth_error_lt in Hlen as [v0 Hv0].
    destruct (mask_fun_nth (batch_shape s) _ a R j v0 A HR L Hv0) as (b & Hb & E). rewrite (Z _ _ Hb) in E.
    assert (X : v = (0 * v0)%Qc) by (apply Some_inj; rewrite <- Hj; exact E). rewrite X. symmetry. apply Qcmult_0_l. }
  intros p a' Ha'. destruct p as [| | |k l|k l]; cbn [tensor_at] in Ha'; try (injection Ha' as <-; apply T; cbn; auto; fail);
    cbn [mapped accumulators defaults] in Ha'; rewrite dget_dmap in Ha'.
  - destruct (dget k (accumulators s)) as [t|] eqn:E; [|discriminate]. cbn [option_map] in Ha'.
    rewrite leaves_tmap, nth_error_map in Ha'. destruct (nth_error (leaves t) l) as [a|] eqn:El; [|discriminate].
    injection Ha' as <-. apply T. do 3 right. apply in_or_app. left.
    eapply in_dict_tensors; [apply dget_In; exact E|eapply nth_error_In; exact El].
  - destruct (dget k (defaults s)) as [t|] eqn:E; [|discriminate]. cbn [option_map] in Ha'.
    rewrite leaves_tmap, nth_error_map in Ha'. destruct (nth_error (leaves t) l) as [a|] eqn:El; [|discriminate].
    injection Ha' as <-. apply T. do 3 right. apply in_or_app. right.
    eapply in_dict_tensors; [apply dget_In; exact E|eapply nth_error_In; exact El].
Qed.
Print Assumptions C32_complement_shows_nothing.
Example C32_case : wf ctl2 /\ twf mask_tf /\ shape mask_tf = batch_shape ctl2 /\ shape (tnot mask_tf) = batch_shape ctl2 /\
  is_ok (x <- mask_data ctl2 DBool mask_tf ;; mask_data x DBool (tnot mask_tf)) = true.
Proof. destruct ctl2_ok as [W _]. split; [exact W|]. split; [reflexivity|]. repeat split; vm. Qed.
