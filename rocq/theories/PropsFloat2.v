(** * More properties in IEEE-754 arithmetic: the floating point part of C12, C15, C17, C18, C30, C32
    and C58. Every equation is bit for bit unless the statement says otherwise, for every binary
    format and including NaN, infinities and signed zeros.

    Vocabulary: FloatNum.v, FloatSpec.v ([cleared], [same_number]), ViewerSpec.v. *)
From Coq Require Import ZArith Reals Lia Lra Psatz.
From Flocq Require Import Core BinarySingleNaN.
From Verif Require Import Base PyTree Tensor Num FloatNum FloatSpec Utils States Controller Builder Viewer Editor
  Wf Spec History ElementSpec BuilderSpec ViewerSpec EditorSpec.
From Verif Require Import BaseFacts TensorFacts ControllerFacts IterateFacts ResetFacts HistoryFacts AgreeFacts ExactFacts ExactFacts2 StepFacts
  BuilderFacts ViewerFacts EditorFacts GravesFacts ElementFacts FloatFacts FloatFacts2 FloatFacts3 FloatFacts4 FloatFacts6 MaskFacts.
From Verif Require PropsViewer PropsEditor.
From Verif Require Import PropsController PropsFloat.
Close Scope R_scope. Close Scope Z_scope. Open Scope string_scope. Open Scope list_scope. Open Scope nat_scope.

(** ** C12 *)
Theorem C12_float_clamping (prec emax : Z) {Hp : Prec_gt_0 prec} {Hm : Prec_lt_emax prec emax}
  (s : state (FloatNum prec emax)) (h : array (FloatNum prec emax)) :
  iterate_act s (a_clip01 h) = iterate_act s h /\
  (forall h' : array (FloatNum prec emax), a_shape h' = a_shape h -> a_dt h' = a_dt h ->
     Forall2 (fun v v' : binary_float prec emax =>
                v' = v \/ (Bleb Bone v = true /\ v' = Bone) \/ (Bleb v (B754_zero false) = true /\ exists sg, v' = B754_zero sg))
       (a_data h) (a_data h') ->
     iterate_act s h' = iterate_act s h).
Proof.
  split; [apply iterate_clipped; intros v; exact (clip_twice prec emax v)|].
  intros h' H1 H2 H3. apply iterate_clip; [exact H1|now rewrite H2|].
  induction H3 as [|v v' l l' Hv _ IH]; [reflexivity|]. cbn [map]. f_equal; [|exact IH].
  change (f_min f_one (f_max f_zero (v' : binary_float prec emax)) = f_min f_one (f_max f_zero (v : binary_float prec emax))).
  destruct Hv as [-> | [[Hv ->] | [Hv [sg ->]]]]; [reflexivity| |].
  - rewrite (clip_at_least_one prec emax v Hv). apply clip_at_least_one. rewrite Bleb_correct; try apply one_finite.
    apply Rle_bool_true, Rle_refl.
  - rewrite (clip_at_most_zero prec emax v Hv). apply clip_at_most_zero. destruct sg; reflexivity.
Qed.
Print Assumptions C12_float_clamping.

(** ** C15 *)
Theorem C15_float_reset (prec emax : Z) {Hp : Prec_gt_0 prec} {Hm : Prec_lt_emax prec emax} (s s' : state (FloatNum prec emax)) :
  wf s -> reset_batches s = Ok s' ->
  (epsilon s' = epsilon s /\ depression_constant s' = depression_constant s /\
   error_mode s' = error_mode s /\ defaults s' = defaults s /\ updates s' = updates s) /\
  (sig (probabilities s') = sig (probabilities s) /\ sig (residuals s') = sig (residuals s) /\
   sig (iterations s') = sig (iterations s) /\ dkeys (accumulators s') = dkeys (accumulators s)) /\
  forall i b, halted s i = Some b ->
    let reset (x : option (val (FloatNum prec emax))) : option (val (FloatNum prec emax)) :=
      if b then option_map (cleared (prec := prec) (emax := emax)) x else x in
    (probabilities s').[i] = reset (probabilities s).[i] /\
    (residuals s').[i] = reset (residuals s).[i] /\
    (iterations s').[i] = reset (iterations s).[i] /\
    forall k t, dget k (accumulators s) = Some t ->
      exists d t', dget k (defaults s) = Some d /\ dget k (accumulators s') = Some t' /\ alike t' t /\
        forall l a dl a', nth_error (leaves t) l = Some a -> nth_error (leaves d) l = Some dl ->
          nth_error (leaves t') l = Some a' ->
          forall R, a_shape a = batch_shape s ++ R ->
          forall j, j / size R = i -> a'.[j] = (if b then dl else a).[j].
Proof.
  intros W H. destruct (reset_any s s' W H) as (A & B & E). split; [exact A|]. split; [exact B|].
  intros i b Hb. destruct (E i b Hb) as (E1 & E2 & E3 & E4).
  assert (X : forall x : option (val (FloatNum prec emax)),
    option_map (fun v => v_mul (FloatNum prec emax) v (if b then v_zero (FloatNum prec emax) else v_one (FloatNum prec emax))) x =
    if b then option_map (cleared (prec := prec) (emax := emax)) x else x).
  { intros [x|]; destruct b; cbn [option_map]; try reflexivity; f_equal.
    - exact (cleared_r prec emax x).
    - exact (mul_one_r prec emax x). }
  cbv zeta. split; [exact (eq_trans E1 (X _))|]. split; [exact (eq_trans E2 (X _))|]. split; [exact (eq_trans E3 (X _))|exact E4].
Qed.
Print Assumptions C15_float_reset.

(** ** C17 *)
Theorem C17_float_reset_idempotent (prec emax : Z) {Hp : Prec_gt_0 prec} {Hm : Prec_lt_emax prec emax}
  (s s' : state (FloatNum prec emax)) :
  (2 <= prec)%Z -> wf s -> eps_ok (epsilon s) \/ is_nan (epsilon s : pyfloat) = true ->
  reset_batches s = Ok s' -> reset_batches s' = Ok s'.
Proof.
  intros H2 W He. apply reset_idempotent_any; [exact (mul_one_r prec emax)| |exact W].
  intros v. change (Bltb (threshold s : binary_float prec emax) (f_mul (v : binary_float prec emax) f_zero) = false).
  rewrite cleared_r. unfold cleared. destruct He as [He|He].
  - destruct (threshold_unit prec emax H2 s He) as [Ft [T0 _]]. destruct (is_finite (v : binary_float prec emax)).
    + apply (ltb_R_false prec emax); [exact Ft|reflexivity|]. cbn. exact T0.
    + apply ltb_nan.
  - assert (E : epsilon s = (B754_nan : pyfloat)) by (destruct (epsilon s : pyfloat); try discriminate; reflexivity).
    unfold threshold. rewrite E. cbn. destruct (is_finite (v : binary_float prec emax)); reflexivity.
Qed.
Print Assumptions C17_float_reset_idempotent.

(** ** C18 *)
(** A depression constant of zero: whatever finite or infinite halting probabilities come, and whatever
    probabilities and accumulators (NaN and infinities included) a running element has, they stay. *)
Theorem C18_float_depression_zero (prec emax : Z) {Hp : Prec_gt_0 prec} {Hm : Prec_lt_emax prec emax}
  (s : state (FloatNum prec emax)) (h : array (FloatNum prec emax)) s' i :
  wf s -> wf_pending s -> awf h -> Forall not_nan (a_data h) ->
  (exists sg, depression_constant s = (B754_zero sg : pyfloat)) -> iterate_act s h = Ok s' ->
  halted s i = Some false ->
  (exists p p', (probabilities s).[i] = Some p /\ (probabilities s').[i] = Some p' /\ same_number (prec := prec) (emax := emax) p' p) /\
  (residuals s').[i] = (residuals s).[i] /\
  halted s' i = Some false /\
  forall k t t' u, dget k (accumulators s) = Some t -> dget k (accumulators s') = Some t' -> dget k (updates s) = Some u ->
    forall l a a' b, nth_error (leaves t) l = Some a -> nth_error (leaves t') l = Some a' -> nth_error (leaves u) l = Some b ->
    forall R, a_shape a = batch_shape s ++ R ->
    forall j w, j / size R = i -> b.[j] = Some w -> is_finite (w : binary_float prec emax) = true ->
    exists v v', a.[j] = Some v /\ a'.[j] = Some v' /\ same_number (prec := prec) (emax := emax) v' v.
Proof.
  intros Hw Hpd Ha Hn [sg Hd] H Hh. destruct (iterate_committed s h s' Hw Hpd Ha H) as (C & Hw' & _).
  pose proof (iterate_ok_iff s h Hw Hpd Ha) as [Hok _]. destruct Hok as (Hsh & _ & Hrd); [eauto|].
  apply halted_get_inv in Hh as (p & Hpp & Hh). symmetry in Hh.
  destruct (batch_get s h i p Hw Ha Hsh Hpp) as [v Hv]. assert (Nv : not_nan v) by exact (Forall_nth _ _ _ _ Hn Hv).
  assert (Hsc : exists sz, scaled s v = (B754_zero sz : binary_float prec emax)).
  { unfold scaled. rewrite Hd. unfold clip01. cbn [v_of_scl v_mul v_min v_max v_one v_zero FloatNum f_of_py].
    apply mul_zeros; [eauto|]. now apply clip_finite. }
  destruct Hsc as [sz Hsc].
  assert (Hhn : halts_now s p v = false).
  { unfold halts_now. rewrite Hsc. cbn [v_ltb v_add FloatNum]. rewrite <- Hh. unfold halted_at. cbn [v_ltb FloatNum].
    apply same_number_ltb. apply (add_zero_l prec emax). }
  assert (Hwt : weight s p v = (B754_zero sz : binary_float prec emax)) by (unfold weight; now rewrite Hhn).
  assert (Hnp : same_number (prec := prec) (emax := emax) (next_p s p v) p).
  { unfold next_p. rewrite Hwt. apply (add_zero_r prec emax). }
  destruct (batch_get s _ i p Hw (wf_r _ Hw) (wf_r_shape _ Hw) Hpp) as [r Hr].
  pose proof (cm_p _ _ _ C i p v Hpp Hv) as P'.
  split; [exists p, (next_p s p v); auto|]. split.
  { rewrite (cm_r _ _ _ C i p r v Hpp Hr Hv), Hr. unfold next_r. now rewrite Hhn. }
  split.
  { unfold halted. rewrite (halted_get _ i _ P'). unfold halted_at, threshold in *. rewrite (cm_eps _ _ _ C). f_equal.
    rewrite <- Hh. cbn [v_ltb FloatNum]. now apply same_number_ltb. }
  intros k t t' u Ht Ht' Hu l a a' b Hla Hla' Hlb R HR j w Hj Hbw Fw.
  destruct (cm_acc _ _ _ C k t Ht) as (u' & x & Hu' & Hx & Hal & Hlu & Heff).
  assert (x = t') by congruence. subst x. assert (u' = u) by congruence. subst u'.
  destruct (ready_leaf s k t u l a b Hw Hpd Hrd Ht Hu Hla Hlb) as [Us Ul].
  destruct (nth_error_same_length _ (a_data a) _ _ Ul Hbw) as [av Eav].
  exists av. eexists. split; [exact Eav|]. split.
  { exact (Heff l a b a' Hla Hlb Hla' R HR j av w p v Eav Hbw ltac:(now rewrite Hj) ltac:(now rewrite Hj)). }
  unfold next_a. rewrite Hh, Hwt. cbn [v_add v_mul FloatNum].
  destruct (mul_zeros prec emax (B754_zero sz) w ltac:(eauto) Fw) as [sm ->]. apply add_zero_r.
Qed.
Print Assumptions C18_float_depression_zero.

(** ** C30 *)
Theorem C30_float_partition (prec emax : Z) {Hp : Prec_gt_0 prec} {Hm : Prec_lt_emax prec emax} (s : state (FloatNum prec emax)) :
  wf s -> exists sh su, halted_only s = Ok sh /\ unhalted_only s = Ok su /\
  forall p a, tensor_at s p = Some a ->
  exists x y, tensor_at sh p = Some x /\ tensor_at su p = Some y /\ sig x = sig a /\ sig y = sig a /\
    forall R, a_shape a = batch_shape s ++ R -> forall j v, a.[j] = Some v ->
    exists b, halted s (j / size R) = Some b /\
      x.[j] = Some (if b then v else cleared (prec := prec) (emax := emax) v) /\
      y.[j] = Some (if b then cleared (prec := prec) (emax := emax) v else v).
Proof.
  intros W.
  assert (Wh : twf (halted_batches s)) by (unfold twf; rewrite (halted_length s W), halted_shape; reflexivity).
  assert (Wu : twf (tnot (halted_batches s))) by (apply twf_map; exact Wh).
  destruct (PropsViewer.C28_masking_any_arithmetic s _ W Wh (halted_shape s)) as (sh & Hh & Eh).
  destruct (PropsViewer.C28_masking_any_arithmetic s _ W Wu (halted_shape s)) as (su & Hu & Eu).
  exists sh, su. split; [exact Hh|]. split; [exact Hu|]. intros p a Ha.
  destruct (Eh p a Ha) as (x & Hx & Sx & Dx). destruct (Eu p a Ha) as (y & Hy & Sy & Dy).
  exists x, y. repeat (split; [assumption|]). intros R HR j v Hv.
  destruct (Dx R HR j v Hv) as (b & Hb & Ex). destruct (Dy R HR j v Hv) as (c & Hc & Ey).
  unfold tnot, tensor_map in Hc. cbn [data] in Hc. rewrite nth_error_map, Hb in Hc. cbn in Hc. injection Hc as <-.
  exists b. split; [exact Hb|]. rewrite Ex, Ey.
  assert (M1 : v_mul (FloatNum prec emax) (v_one (FloatNum prec emax)) v = v) by exact (mul_one_l prec emax v).
  assert (M0 : v_mul (FloatNum prec emax) (v_zero (FloatNum prec emax)) v = cleared (prec := prec) (emax := emax) v)
    by exact (cleared_l prec emax v).
  destruct b; cbn [negb]; rewrite M1, M0; auto.
Qed.
Print Assumptions C30_float_partition.
(** Hence the two views add up to the original for every finite entry. *)
Lemma partition_sums (prec emax : Z) (v : binary_float prec emax) : is_finite v = true -> (B2R v + B2R (cleared v) = B2R v)%R.
Proof. intros F. unfold cleared. rewrite F. cbn. lra. Qed.

(** ** C32 *)
Theorem C32_float_masks_compose (prec emax : Z) {Hp : Prec_gt_0 prec} {Hm : Prec_lt_emax prec emax}
  (s : state (FloatNum prec emax)) (m1 m2 : tensor bool) :
  wf s -> twf m1 -> twf m2 -> shape m1 = batch_shape s -> shape m2 = batch_shape s ->
  (x <- mask_data s DBool m1 ;; mask_data x DBool m2) = mask_data s DBool (PropsViewer.mask_and m1 m2) /\
  (x <- mask_data s DBool m1 ;; mask_data x DBool m1) = mask_data s DBool m1.
Proof.
  intros W W1 W2 H1 H2. split; [exact (masks_compose_any s m1 m2 (float_masks_multiply prec emax) W W1 W2 H1 H2)|].
  rewrite (masks_compose_any s m1 m1 (float_masks_multiply prec emax) W W1 W1 H1 H1). f_equal. destruct m1 as [sh d]. cbn.
  f_equal. clear. induction d as [|b d IH]; cbn; [reflexivity|]. rewrite IH. now destruct b.
Qed.
Print Assumptions C32_float_masks_compose.

(** ** C58 *)
(** set_epsilon accepts zero and every epsilon too small for the format ([lost_epsilon], FloatSpec.v);
    from then on no call can ever halt an element, NaN halting probabilities included. *)
Theorem C58_float_refuted (prec emax : Z) {Hp : Prec_gt_0 prec} {Hm : Prec_lt_emax prec emax}
  (s : state (FloatNum prec emax)) (eps : pyfloat) :
  (2 <= prec <= 53)%Z -> prec <> 52%Z -> wf s -> wf_pending s -> dep_ok prec emax (depression_constant s) -> probabilities_ok s ->
  is_finite eps = true -> (0 <= B2R eps <= lost_epsilon prec)%R ->
  exists s0, set_epsilon (mkEd s "standard") (eps : scl (FloatNum prec emax)) = Ok (mkEd s0 "standard") /\
    epsilon s0 = eps /\ probabilities s0 = probabilities s /\ accumulators s0 = accumulators s /\
    forall cs i b, Forall call_wf cs -> halted (run s0 cs) i = Some b -> b = false.
Proof.
  intros [H2 H53] H52 W P Hd U Fe [Pe Le].
  assert (L1 : (B2R eps < 1)%R).
  { eapply Rle_lt_trans; [exact Le|]. unfold lost_epsilon.
    assert (B54 : (bpow radix2 (-54) < bpow radix2 (-1))%R) by (apply bpow_lt; lia).
    assert (Bp : (bpow radix2 (- prec - 1) < bpow radix2 (-1))%R) by (apply bpow_lt; lia).
    change (bpow radix2 (-1)) with (/ 2)%R in *. destruct (prec =? 53)%Z; lra. }
  eexists. split.
  { apply (set_epsilon_char (mkEd s "standard") (eps : scl (FloatNum prec emax)) eq_refl).
    cbn [s_leb s_zero s_one FloatNum]. split.
    - rewrite Bleb_correct; auto. now apply Rle_bool_true.
    - rewrite Bleb_correct; [|exact Fe|apply is_finite_Bone]. rewrite Bone_correct. apply Rle_bool_true. lra. }
  cbv zeta. cbn [ed_state]. match goal with |- context [run ?x _] => set (s0 := x) end.
  split; [reflexivity|]. split; [reflexivity|]. split; [reflexivity|].
  assert (W0 : wf s0) by (destruct W; split; auto). assert (P0 : wf_pending s0) by exact P.
  assert (He0 : eps_ok (epsilon s0)) by (split; [exact Fe|unfold s0; cbn [epsilon]; lra]).
  intros cs i b F H. apply halted_get_inv in H as (p & Hpi & ->).
  destruct (run_wf s0 cs W0 P0 F) as [W' _]. destruct (element_exists _ i p W' Hpi) as (r & n & El).
  assert (I : funit (p : binary_float prec emax) \/ p = (B754_nan : binary_float prec emax)).
  { refine (run_element (N := FloatNum prec emax) (fun _ => True)
      (fun p _ _ => funit (p : binary_float prec emax) \/ p = (B754_nan : binary_float prec emax)) s0 _ _ cs s0 eq_refl eq_refl W0 P0 F _ _ i p r n El).
    - intros x _ _ w [Ux| ->] _; [|right; reflexivity].
      destruct (is_nan (w : binary_float prec emax)) eqn:Nw; [right|left; now apply (step_unit prec emax H2 s0 He0 Hd x w)].
      assert (w = (B754_nan : binary_float prec emax)) as -> by (destruct (w : binary_float prec emax); try discriminate; reflexivity).
      assert (Sc : scaled s0 (B754_nan : binary_float prec emax) = (B754_nan : binary_float prec emax)).
      { unfold scaled, clip01. cbn [v_of_scl v_mul v_min v_max v_one v_zero FloatNum].
        assert (E : f_min f_one (f_max f_zero B754_nan) = (B754_nan : binary_float prec emax)).
        { unfold f_min, f_max. cbn [is_nan f_zero]. rewrite (finite_not_nan prec emax _ (one_finite prec emax)). reflexivity. }
        rewrite E. apply mul_nan_r. }
      assert (Bn : halts_now s0 x (B754_nan : binary_float prec emax) = false).
      { unfold halts_now. rewrite Sc. cbn [v_ltb v_add FloatNum]. rewrite add_nan_l. apply ltb_nan. }
      unfold next_p, weight. rewrite Bn, Sc. apply add_nan_r.
    - intros x _ _ [Ux| ->]; [left; now apply kept_unit|right; reflexivity].
    - apply Forall_forall. intros [|h|] _; cbn; auto. apply Forall_forall. auto.
    - intros j x _ _ (Hx & _). left. exact (U j x Hx). }
  assert (E : epsilon (run s0 cs) = epsilon s0) by (rewrite (sf_eps _ _ (run_frame s0 cs W0 P0 F)); reflexivity).
  unfold halted_at, threshold. rewrite E. fold (threshold s0). cbn [v_ltb FloatNum].
  destruct I as [[Fp [_ Bp]]| ->].
  - apply (ltb_R_false prec emax); [apply (threshold_unit prec emax H2 s0 He0)|exact Fp|].
    rewrite (threshold_is_one prec emax H2 s0 H53 H52 He0) by exact Le. rewrite one_R. exact Bp.
  - apply ltb_nan.
Qed.
Print Assumptions C58_float_refuted.

(** ** Cases *)
Example C12_float_case :
  let s := run (ctl32 (py_div 1 10)) (firstn 1 calls32) in
  let v := arr32 [2] [B754_infinity false; f32 (-3) 1] in let v' := arr32 [2] [f32 1 1; B754_zero true] in
  Forall2 (fun v v' : binary_float 24 128 =>
             v' = v \/ (Bleb Bone v = true /\ v' = Bone) \/ (Bleb v (B754_zero false) = true /\ exists sg, v' = B754_zero sg))
    (a_data v) (a_data v') /\
  is_ok (iterate_act s v) = true /\ map (fun x => is_nan (x : binary_float 24 128)) (a_data (a_clip01 (arr32 [2] [B754_nan; f32 1 2]))) = [true; false].
Proof.
  cbv zeta. split; [|split; vm_compute; reflexivity]. constructor; [right; left|constructor; [right; right|constructor]].
  - split; [vm_compute; reflexivity|]. apply eq_one; [vm_compute; reflexivity|].
    apply Rle_antisym; rewrite <- (one_R 24 128); apply leb_real; vm_compute; reflexivity.
  - split; [vm_compute; reflexivity|eauto].
Qed.
Definition mid32 : state N32 := run (ctl32 (py_div 1 10)) (firstn 4 calls32).
Lemma mid32_ok : wf mid32 /\ wf_pending mid32.
Proof.
  assert (Se : eps_sane (N := N32) (py_div 1 10)) by (split; vm_compute; reflexivity).
  destruct (ctl32_ok _ Se) as (W & F & P). apply run_wf; auto. repeat constructor.
Qed.
(** element 1 is halted, element 0 is running: the reset clears element 1 only *)
Example C15_float_case : wf mid32 /\ (eps_ok (epsilon mid32) \/ is_nan (epsilon mid32 : pyfloat) = true) /\
  halted mid32 0 = Some false /\ halted mid32 1 = Some true /\
  match reset_batches mid32 with
  | Ok s' => [bits (probabilities s'); bits (residuals s'); bits (iterations s')]
  | Err _ => []
  end = map (fun x => match x with y :: _ => [y; SpecFloat.S754_zero false] | [] => [] end)
          [bits (probabilities mid32); bits (residuals mid32); bits (iterations mid32)].
Proof.
  destruct mid32_ok as [W _]. split; [exact W|]. split; [left; apply unit_by_computation; vm_compute; reflexivity|].
  split; [vm_compute; reflexivity|]. split; [vm_compute; reflexivity|]. vm_compute. reflexivity.
Qed.
(** depression constant zero, an infinite halting probability *)
Definition ctlz : state N32 := brun (empty_state (N := N32) [2] DF32 (py_div 1 10) (py_div 0 1) None) defs32.
Definition midz : state N32 := run ctlz (firstn 1 calls32).
Example C18_float_case : wf midz /\ wf_pending midz /\ (exists sg, depression_constant midz = (B754_zero sg : pyfloat)) /\
  let h := arr32 [2] [B754_infinity false; f32 1 2] in
  awf h /\ Forall not_nan (a_data h) /\ is_ok (iterate_act midz h) = true /\ halted midz 0 = Some false /\
  match dget "x" (updates midz) with Some (Leaf u) => map (fun w => is_finite (w : binary_float 24 128)) (a_data u) | _ => [] end = [true; true].
Proof.
  assert (B : new_builder_with (N := N32) (Some None) (BInt 2) (Some DF32) (py_div 1 10 : scl N32) (py_div 0 1) =
              Ok (empty_state (N := N32) [2] DF32 (py_div 1 10) (py_div 0 1) None)).
  { apply new_builder_with_ok. split; [reflexivity|]. split; [split; vm_compute; reflexivity|]. split; [constructor; [lia|constructor]|reflexivity]. }
  destruct (new_builder_wf _ _ _ _ _ _ B) as [W F]. destruct (brun_wf _ defs32 W F) as (W' & F' & _); [repeat constructor|].
  destruct (run_wf ctlz (firstn 1 calls32) W' (Samples.fresh_wf_pending _ F')) as [W2 P2]; [repeat constructor|].
  split; [exact W2|]. split; [exact P2|]. split; [exists false; vm_compute; reflexivity|].
  cbv zeta. split; [reflexivity|]. split; [repeat constructor; vm_compute; reflexivity|]. repeat split; vm_compute; reflexivity.
Qed.
(** the controller of C29_case, with infinity and NaN in its accumulator, seen through the halted view *)
Example C30_float_case : wf ctl32b /\ halted ctl32b 0 = Some false /\
  match halted_only ctl32b with
  | Ok s' => match dget "x" (accumulators s') with Some (Leaf a) => bits a | _ => [] end
  | Err _ => []
  end = [SpecFloat.S754_nan; SpecFloat.S754_zero false; SpecFloat.S754_nan; SpecFloat.S754_zero true].
Proof. split; [exact (proj1 C29_case)|]. split; vm_compute; reflexivity. Qed.
Example C32_float_case : let m1 := mkT [2] [true; false] in let m2 := mkT [2] [true; true] in
  wf ctl32b /\ twf m1 /\ twf m2 /\ shape m1 = batch_shape ctl32b /\ shape m2 = batch_shape ctl32b.
Proof. split; [exact (proj1 C29_case)|]. repeat split. Qed.
(** 2^-30 is accepted; then iterations at full strength reach exactly one without halting *)
Example C58_float_case : wf (ctl32 (py_div 1 10)) /\ wf_pending (ctl32 (py_div 1 10)) /\
  dep_ok 24 128 (depression_constant (ctl32 (py_div 1 10))) /\ probabilities_ok (ctl32 (py_div 1 10)) /\
  is_finite tiny = true /\ (0 <= B2R tiny <= lost_epsilon 24)%R /\
  match set_epsilon (mkEd (ctl32 (py_div 1 10)) "standard") (tiny : scl N32) with
  | Ok e => data (halted_batches (run (ed_state e) (step32 (f32 1 1) (f32 1 1)))) = [false; false]
  | Err _ => False
  end.
Proof.
  assert (Se : eps_sane (N := N32) (py_div 1 10)) by (split; vm_compute; reflexivity).
  destruct (ctl32_ok _ Se) as (W & F & P). split; [exact W|]. split; [exact P|].
  split; [split; [vm_compute; reflexivity|apply (leb_real (f_zero (prec := 24) (emax := 128))); vm_compute; reflexivity]|].
  split; [now apply fresh_unit|]. destruct C21_case as (_ & Ft & Lt & _). split; [exact Ft|]. split; [split; [|exact Lt]|vm_compute; reflexivity].
  apply (leb_real (B754_zero false : pyfloat)). vm_compute. reflexivity.
Qed.
