(** * Facts about the IEEE-754 instance *)
From Coq Require Import ZArith Reals Lia Lra Psatz.
From Flocq Require Import Core BinarySingleNaN Sterbenz.
From Verif Require Import Base PyTree Tensor Num FloatNum States Wf FloatSpec.

Lemma lift_lt x y : Rlt_bool x y = true -> (x < y)%R.
Proof. destruct (Rlt_bool_spec x y); [auto|discriminate]. Qed.

Section Rounding.
  Context (prec emax : Z) {Hp : Prec_gt_0 prec} {Hm : Prec_lt_emax prec emax} (H2 : (2 <= prec)%Z).
  Notation fexp := (SpecFloat.fexp prec emax).
  Notation rnd := (round radix2 fexp ZnearestE).
  Notation format := (generic_format radix2 fexp).
  Local Open Scope R_scope.

  Local Instance fexp_ok : Valid_exp fexp := FLT_exp_valid (SpecFloat.emin prec emax) prec.
  Local Instance fexp_mono : Monotone_exp fexp := FLT_exp_monotone (SpecFloat.emin prec emax) prec.

  Lemma emax_3 : (3 <= emax)%Z.
  Proof. unfold Prec_lt_emax in Hm. lia. Qed.
  Lemma fexp_small e : (0 <= e)%Z -> (e <= prec)%Z -> fexp e = (e - prec)%Z.
  Proof.
    intros A B. unfold SpecFloat.fexp, SpecFloat.emin. pose proof emax_3. lia.
  Qed.
  Lemma fexp_0 : fexp 0 = (- prec)%Z.
  Proof. rewrite fexp_small; lia. Qed.
  Lemma fexp_1 : fexp 1 = (1 - prec)%Z.
  Proof. rewrite fexp_small; lia. Qed.
  Lemma format_1 : format 1.
  Proof.
    change 1 with (bpow radix2 0). apply generic_format_bpow. change (0 + 1)%Z with 1%Z. rewrite fexp_1. lia.
  Qed.
  Lemma rnd_1 : rnd 1 = 1.
  Proof. apply round_generic; [apply valid_rnd_N|apply format_1]. Qed.
  Lemma rnd_0 : rnd 0 = 0.
  Proof. apply round_0, valid_rnd_N. Qed.
  Lemma rnd_le x y : x <= y -> rnd x <= rnd y.
  Proof. apply round_le; [apply fexp_ok|apply valid_rnd_N]. Qed.
  Lemma rnd_ge_fmt x y : format x -> x <= y -> x <= rnd y.
  Proof. apply round_ge_generic; [apply fexp_ok|apply valid_rnd_N]. Qed.
  Lemma rnd_le_fmt x y : format y -> x <= y -> rnd x <= y.
  Proof. apply round_le_generic; [apply fexp_ok|apply valid_rnd_N]. Qed.
  Lemma rnd_fmt x : format x -> rnd x = x.
  Proof. apply round_generic, valid_rnd_N. Qed.
  Lemma rnd_unit x : 0 <= x <= 1 -> 0 <= rnd x <= 1.
  Proof.
    intros [A B]. split.
    - rewrite <- rnd_0. now apply rnd_le.
    - rewrite <- rnd_1. now apply rnd_le.
  Qed.
  Lemma one_lt_emax : 1 < bpow radix2 emax.
  Proof. change 1 with (bpow radix2 0). apply bpow_lt. pose proof emax_3. lia. Qed.
  Lemma two_lt_emax : 2 < bpow radix2 emax.
  Proof. change 2 with (bpow radix2 1). apply bpow_lt. pose proof emax_3. lia. Qed.

  (** Between 1/2 and 1 the mantissa is counted in units of 2^-prec. *)
  Lemma cexp_half x : /2 <= x < 1 -> cexp radix2 fexp x = (- prec)%Z.
  Proof.
    intros [A B]. unfold cexp. rewrite (mag_unique radix2 x 0); [apply fexp_0|].
    rewrite Rabs_pos_eq by lra. change (bpow radix2 (0 - 1)) with (/ 2). change (bpow radix2 0) with 1. lra.
  Qed.
  Lemma cexp_one x : 1 <= x < 2 -> cexp radix2 fexp x = (1 - prec)%Z.
  Proof.
    intros [A B]. unfold cexp. rewrite (mag_unique radix2 x 1); [apply fexp_1|].
    rewrite Rabs_pos_eq by lra. change (bpow radix2 (1 - 1)) with 1. change (bpow radix2 1) with 2. lra.
  Qed.
  (** half a unit in the last place below one *)
  Definition half_gap : R := bpow radix2 (- prec - 1).
  Lemma half_gap_pos : 0 < half_gap.
  Proof. apply bpow_gt_0. Qed.
  Lemma half_gap_small : half_gap <= / 8.
  Proof. change (/ 8) with (bpow radix2 (-3)). apply bpow_le. lia. Qed.
  Lemma half_gap_scale : half_gap * bpow radix2 prec = / 2.
  Proof. unfold half_gap. rewrite <- bpow_plus. replace (- prec - 1 + prec)%Z with (-1)%Z by lia. reflexivity. Qed.
  Lemma bpow_prec_Z : bpow radix2 prec = IZR (2 ^ prec).
  Proof. symmetry. apply (IZR_Zpower radix2). lia. Qed.
  Lemma even_pow n : (1 <= n)%Z -> Z.even (2 ^ n) = true.
  Proof. intros H. rewrite Z.even_pow by lia. reflexivity. Qed.

  Lemma near_one_below x : 1 - half_gap <= x <= 1 -> rnd x = 1.
  Proof.
    intros [A B]. destruct (Rle_lt_or_eq_dec _ _ B) as [Lt| ->]; [|apply rnd_1].
    pose proof half_gap_pos. pose proof half_gap_small.
    assert (E : cexp radix2 fexp x = (- prec)%Z) by (apply cexp_half; lra).
    unfold round, F2R, scaled_mantissa. cbn [Fnum Fexp]. rewrite E, Z.opp_involutive.
    set (y := x * bpow radix2 prec).
    assert (Y : bpow radix2 prec - / 2 <= y < bpow radix2 prec).
    { unfold y. rewrite <- half_gap_scale. pose proof (bpow_gt_0 radix2 prec). split; nra. }
    assert (Z1 : ZnearestE y = (2 ^ prec)%Z).
    { rewrite bpow_prec_Z in Y. set (M := (2 ^ prec)%Z) in *.
      assert (Ev : Z.even M = true) by (apply even_pow; lia).
      assert (Fl : Zfloor y = (M - 1)%Z).
      { apply Zfloor_imp. rewrite minus_IZR, plus_IZR, minus_IZR. lra. }
      unfold Znearest. rewrite Fl.
      assert (Ce : Zceil y = M) by (apply Zceil_imp; rewrite minus_IZR; lra).
      rewrite Ce, minus_IZR.
      destruct (Rcompare_spec (y - (IZR M - 1)) (/2)); [lra| |reflexivity].
      replace (Z.even (M - 1)) with false; [reflexivity|].
      rewrite Z.even_sub, Ev. reflexivity. }
    rewrite Z1. rewrite <- bpow_prec_Z, <- bpow_plus.
    replace (prec + - prec)%Z with 0%Z by lia. reflexivity.
  Qed.
  Lemma near_one x : 1 - half_gap <= x <= 1 + half_gap -> rnd x = 1.
  Proof.
    intros [A B]. destruct (Rle_or_lt x 1) as [L|L]; [now apply near_one_below|].
    pose proof half_gap_pos. pose proof half_gap_small.
    assert (E : cexp radix2 fexp x = (1 - prec)%Z) by (apply cexp_one; lra).
    unfold round, F2R, scaled_mantissa. cbn [Fnum Fexp]. rewrite E.
    replace (- (1 - prec))%Z with (prec - 1)%Z by lia.
    assert (Q : bpow radix2 (prec - 1) = IZR (2 ^ (prec - 1))) by (symmetry; apply (IZR_Zpower radix2); lia).
    assert (Sc : half_gap * bpow radix2 (prec - 1) = / 4).
    { unfold half_gap. rewrite <- bpow_plus. replace (- prec - 1 + (prec - 1))%Z with (-2)%Z by lia. reflexivity. }
    assert (Z1 : ZnearestE (x * bpow radix2 (prec - 1)) = (2 ^ (prec - 1))%Z).
    { apply Znearest_imp. rewrite <- Q. pose proof (bpow_gt_0 radix2 (prec - 1)).
      rewrite Rabs_pos_eq; nra. }
    rewrite Z1, <- Q, <- bpow_plus. replace (prec - 1 + (1 - prec))%Z with 0%Z by lia. reflexivity.
  Qed.

  (** Adding the rounded remainder to [p] gives exactly one. *)
  Lemma remainder_exact p : format p -> 0 <= p <= 1 -> rnd (p + rnd (1 - p)) = 1.
  Proof.
    intros F [A B]. destruct (Rle_or_lt (/2) p) as [L|L].
    - rewrite (rnd_fmt (1 - p)).
      + replace (p + (1 - p)) with 1 by ring. apply rnd_1.
      + apply sterbenz; [apply fexp_ok|apply fexp_mono|apply format_1|exact F|lra].
    - destruct (Req_dec p 0) as [->|N0].
      { rewrite Rminus_0_r, rnd_1, Rplus_0_l. apply rnd_1. }
      assert (E : Rabs (rnd (1 - p) - (1 - p)) <= half_gap).
      { eapply Rle_trans; [apply error_le_half_ulp; apply fexp_ok|].
        rewrite ulp_neq_0 by lra. rewrite cexp_half by lra.
        unfold half_gap. replace (- prec - 1)%Z with (-1 + - prec)%Z by lia. rewrite bpow_plus.
        change (bpow radix2 (-1)) with (/ 2). lra. }
      apply Rabs_le_inv in E. apply near_one. lra.
  Qed.
End Rounding.

Section Float.
  Context (prec emax : Z) {Hp : Prec_gt_0 prec} {Hm : Prec_lt_emax prec emax} (H2 : (2 <= prec)%Z).
  Notation bf := (binary_float prec emax).
  Notation fexp := (SpecFloat.fexp prec emax).
  Notation rnd := (round radix2 fexp ZnearestE).
  Notation format := (generic_format radix2 fexp).
  Local Open Scope R_scope.

  Lemma fmt (x : bf) : format (B2R x).
  Proof. apply generic_format_B2R. Qed.
  Lemma sign_neg (x : bf) : Bsign x = true -> is_finite x = true -> B2R x <= 0.
  Proof.
    destruct x as [s|s| |s m e Hb]; cbn; intros E F; try lra; try discriminate.
    subst s. apply F2R_le_0. cbn. lia.
  Qed.
  Lemma eq_one (x : bf) : is_finite x = true -> B2R x = 1 -> x = f_one.
  Proof.
    intros F E. apply B2R_inj.
    - destruct x; cbn in *; try discriminate; try reflexivity; lra.
    - apply is_finite_strict_Bone.
    - rewrite E. symmetry. apply Bone_correct.
  Qed.
  Lemma one_finite : is_finite (f_one : bf) = true. Proof. apply is_finite_Bone. Qed.
  Lemma one_R : B2R (f_one : bf) = 1. Proof. apply Bone_correct. Qed.
  Lemma one_unit : funit (f_one : bf).
  Proof. split; [apply one_finite|]. rewrite one_R. lra. Qed.
  Lemma zero_unit : funit (f_zero : bf).
  Proof. split; [reflexivity|]. cbn. lra. Qed.

  Lemma sub_one (p : bf) : funit p -> funit (f_sub f_one p) /\ B2R (f_sub f_one p) = rnd (1 - B2R p).
  Proof.
    intros [F [A B]]. pose proof (Bminus_correct prec emax Hp Hm mode_NE f_one p one_finite F) as X.
    rewrite one_R in X. cbn [round_mode] in X.
    assert (U : 0 <= rnd (1 - B2R p) <= 1) by (apply rnd_unit; auto; lra).
    rewrite Rlt_bool_true in X.
    - destruct X as (X1 & X2 & _). unfold f_sub. split; [split; [exact X2|now rewrite X1]|exact X1].
    - rewrite Rabs_pos_eq by lra. pose proof (one_lt_emax prec emax H2). lra.
  Qed.
  Lemma add_finite (x y : bf) : is_finite x = true -> is_finite y = true ->
    Rabs (rnd (B2R x + B2R y)) < bpow radix2 emax ->
    is_finite (f_add x y) = true /\ B2R (f_add x y) = rnd (B2R x + B2R y).
  Proof.
    intros Fx Fy L. pose proof (Bplus_correct prec emax Hp Hm mode_NE x y Fx Fy) as X. cbn [round_mode] in X.
    rewrite Rlt_bool_true in X by exact L. destruct X as (X1 & X2 & _). split; [exact X2|exact X1].
  Qed.
  Lemma add_nonneg (x y : bf) : fnonneg x -> fnonneg y ->
    (is_finite (f_add x y) = true /\ B2R (f_add x y) = rnd (B2R x + B2R y)) \/ f_add x y = B754_infinity false.
  Proof.
    intros [Fx Ax] [Fy Ay].
    destruct (Rlt_or_le (Rabs (rnd (B2R x + B2R y))) (bpow radix2 emax)) as [L|L].
    - left. now apply add_finite.
    - right. pose proof (Bplus_correct prec emax Hp Hm mode_NE x y Fx Fy) as X. cbn [round_mode] in X.
      rewrite Rlt_bool_false in X by exact L. destruct X as [X1 X2].
      assert (S : Bsign x = false).
      { destruct (Bsign x) eqn:Sx; [|reflexivity]. exfalso.
        pose proof (sign_neg x Sx Fx). pose proof (sign_neg y (eq_sym X2) Fy).
        replace (B2R x + B2R y) with 0 in L by lra. rewrite (rnd_0 prec emax), Rabs_R0 in L.
        pose proof (bpow_gt_0 radix2 emax). lra. }
      rewrite S in X1. unfold f_add.
      destruct (Bplus mode_NE x y) as [s|s| |s m e Hb]; cbn in X1; try discriminate. now injection X1 as ->.
  Qed.
  (** One plus the remainder is exactly one, as floating point numbers. *)
  Lemma complete (p : bf) : funit p -> f_add p (f_sub f_one p) = f_one.
  Proof.
    intros U. destruct (sub_one p U) as [[F1 B1] E1]. destruct U as [F B].
    assert (R1 : rnd (B2R p + B2R (f_sub f_one p)) = 1).
    { rewrite E1. apply remainder_exact; auto. apply fmt. }
    destruct (add_finite p (f_sub f_one p) F F1) as [G1 G2].
    { rewrite R1, Rabs_R1. now apply (one_lt_emax prec emax). }
    apply eq_one; [exact G1|]. congruence.
  Qed.
  Lemma mul_unit (d c : bf) : fnonneg d -> funit c ->
    fnonneg (f_mul d c) /\ B2R (f_mul d c) = rnd (B2R d * B2R c) /\ B2R (f_mul d c) <= B2R d.
  Proof.
    intros [Fd Ad] [Fc [Ac Bc]]. pose proof (Bmult_correct prec emax Hp Hm mode_NE d c) as X. cbn [round_mode] in X.
    assert (U0 : 0 <= rnd (B2R d * B2R c)).
    { rewrite <- (rnd_0 prec emax). apply rnd_le; [exact Hp|now apply Rmult_le_pos]. }
    assert (U1 : rnd (B2R d * B2R c) <= B2R d).
    { apply rnd_le_fmt; [apply Hp|apply fmt|nra]. }
    rewrite Rlt_bool_true in X.
    - destruct X as (X1 & X2 & _). unfold f_mul. rewrite X1. split; [|split; [reflexivity|exact U1]].
      split; [rewrite X2, Fd, Fc; reflexivity|]. now rewrite X1.
    - rewrite Rabs_pos_eq by exact U0. pose proof (abs_B2R_lt_emax _ _ d) as Y. rewrite Rabs_pos_eq in Y by exact Ad. lra.
  Qed.

  Lemma ltb_R (x y : bf) : is_finite x = true -> is_finite y = true -> Bltb x y = true <-> B2R x < B2R y.
  Proof.
    intros Fx Fy. rewrite Bltb_correct by assumption. destruct (Rlt_bool_spec (B2R x) (B2R y)); split; intros; try lra; try discriminate; auto.
  Qed.
  Lemma ltb_R_false (x y : bf) : is_finite x = true -> is_finite y = true -> Bltb x y = false <-> B2R y <= B2R x.
  Proof.
    intros Fx Fy. rewrite Bltb_correct by assumption. destruct (Rlt_bool_spec (B2R x) (B2R y)); split; intros; try lra; try discriminate; auto.
  Qed.
  Lemma finite_not_nan (x : bf) : is_finite x = true -> is_nan x = false.
  Proof. destruct x; cbn; congruence. Qed.
  Lemma f_max_0 (v : bf) : is_nan v = false ->
    (is_finite v = true /\ f_max f_zero v = v /\ 0 < B2R v) \/ f_max f_zero v = f_zero \/ v = B754_infinity false.
  Proof.
    intros Nn. unfold f_max, f_zero. cbn [is_nan]. rewrite Nn.
    destruct (is_finite v) eqn:F.
    - destruct (Bltb (B754_zero false) v) eqn:L; [left|right; left; reflexivity].
      repeat split; auto. now apply (ltb_R (B754_zero false) v) in L.
    - destruct v as [s|[|]| |]; cbn in *; try discriminate; auto.
  Qed.
  Lemma clip_unit (v : bf) : is_nan v = false -> funit (f_min f_one (f_max f_zero v)).
  Proof.
    intros Nn. pose proof one_unit as O. unfold f_min. rewrite (finite_not_nan f_one one_finite).
    destruct (f_max_0 v Nn) as [(F & -> & P)|[->| ->]].
    - rewrite Nn. destruct (Bltb v f_one) eqn:L; [|exact O].
      apply ltb_R in L; [|exact F|apply one_finite]. rewrite one_R in L. split; [exact F|lra].
    - cbn [is_nan f_zero]. fold (@f_zero prec emax). destruct (Bltb f_zero f_one); [apply zero_unit|exact O].
    - assert (M : f_max (f_zero : bf) (B754_infinity false) = B754_infinity false) by reflexivity. rewrite M. cbn [is_nan].
      replace (Bltb _ _) with false; [exact O|].
      generalize one_finite. destruct (f_one : bf) as [s|s| |s m e Hb]; cbn; try discriminate; destruct s; reflexivity.
  Qed.

  (** Conversion of a Python float in [0,1] *)
  Lemma of_py_R (x : pyfloat) : is_finite x = true -> 0 <= B2R x <= 1 ->
    funit (f_of_py x) /\ B2R (f_of_py x : bf) = rnd (B2R x).
  Proof.
    intros F B. assert (U : 0 <= rnd (B2R x) <= 1) by now apply rnd_unit.
    destruct x as [s|s| |s m e Hb]; cbn [is_finite] in F; try discriminate.
    - cbn [f_of_py B2R]. rewrite rnd_0. split; [split; [reflexivity|cbn; lra]|reflexivity].
    - pose proof (binary_normalize_correct prec emax Hp Hm mode_NE (cond_Zopp s (Zpos m)) e s) as X.
      cbn [round_mode] in X. cbn [B2R] in U. rewrite Rlt_bool_true in X.
      + destruct X as (X1 & X2 & _). cbn [f_of_py B2R]. split; [|exact X1]. split; [exact X2|]. now rewrite X1.
      + rewrite Rabs_pos_eq by tauto. pose proof (one_lt_emax prec emax H2). lra.
  Qed.
End Float.

(** ** One step of one batch element *)
Section Step.
  Context (prec emax : Z) {Hp : Prec_gt_0 prec} {Hm : Prec_lt_emax prec emax} (H2 : (2 <= prec)%Z).
  Notation N := (FloatNum prec emax).
  Notation fexp := (SpecFloat.fexp prec emax).
  Notation rnd := (round radix2 fexp ZnearestE).
  Local Open Scope R_scope.

  Context (s : state N) (He : eps_ok (epsilon s)) (Hd : dep_ok prec emax (depression_constant s)).

  Lemma threshold_unit : funit (threshold s : binary_float prec emax).
  Proof.
    unfold threshold. cbn [v_of_scl s_one_sub FloatNum].
    destruct (sub_one 53 1024 ltac:(lia) (epsilon s : pyfloat) He) as [[F B] _].
    now apply (of_py_R prec emax H2).
  Qed.
  Lemma scaled_nonneg (h : binary_float prec emax) : is_nan h = false -> fnonneg (scaled s h : binary_float prec emax).
  Proof.
    intros Nn. unfold scaled, clip01. cbn [v_mul v_of_scl v_min v_max v_one v_zero FloatNum].
    now apply mul_unit; [exact Hd|apply clip_unit].
  Qed.

  Lemma halting_step (p h : binary_float prec emax) :
    funit p -> halts_now s p h = true ->
    weight s p h = f_sub f_one p /\ next_p s p h = f_one.
  Proof.
    intros U W. unfold next_p. assert (E : weight s p h = f_sub f_one p) by (unfold weight; now rewrite W).
    split; [exact E|]. rewrite E. now apply complete.
  Qed.
  Lemma running_step (p h : binary_float prec emax) :
    funit p -> is_nan h = false -> halts_now s p h = false ->
    is_finite (next_p s p h : binary_float prec emax) = true /\
    B2R (next_p s p h : binary_float prec emax) = rnd (B2R p + B2R (scaled s h : binary_float prec emax)) /\
    B2R p <= B2R (next_p s p h : binary_float prec emax) <= B2R (threshold s : binary_float prec emax).
  Proof.
    intros U Nn W. pose proof (scaled_nonneg h Nn) as Sn. pose proof threshold_unit as T.
    assert (Up : fnonneg p) by (destruct U as [? [? ?]]; split; auto).
    assert (E : next_p s p h = f_add p (scaled s h)) by (unfold next_p, weight; now rewrite W). rewrite E.
    unfold halts_now in W. cbn [v_ltb v_add FloatNum] in W.
    assert (C : rnd (B2R (scaled s h : binary_float prec emax) + B2R p) <= B2R (threshold s : binary_float prec emax)).
    { destruct (add_nonneg prec emax (scaled s h) p Sn Up) as [[F R]|I].
      - rewrite <- R. apply ltb_R_false; auto. apply T.
      - rewrite I in W. destruct T as [T _]. revert W T. generalize (threshold s : binary_float prec emax).
        intros t. destruct t as [[|]|[|]| |[|] m e Hb]; cbn; discriminate. }
    rewrite Rplus_comm in C.
    assert (L : B2R p <= rnd (B2R p + B2R (scaled s h : binary_float prec emax))).
    { apply rnd_ge_fmt; [apply Hp|apply generic_format_B2R|]. destruct Sn. lra. }
    destruct (add_finite prec emax p (scaled s h) (proj1 Up) (proj1 Sn)) as [G1 G2].
    { destruct T as [_ [T1 T2]]. destruct U as [_ [U1 _]]. rewrite Rabs_pos_eq by lra.
      pose proof (one_lt_emax prec emax H2). lra. }
    rewrite G2. repeat split; auto.
  Qed.
  Theorem step_unit (p h : binary_float prec emax) :
    funit p -> is_nan h = false ->
    funit (next_p s p h : binary_float prec emax) /\ B2R p <= B2R (next_p s p h : binary_float prec emax).
  Proof.
    intros U Nn. destruct (halts_now s p h) eqn:W.
    - destruct (halting_step p h U W) as [_ ->]. pose proof (one_unit prec emax). split; [assumption|].
      rewrite one_R. apply U.
    - destruct (running_step p h U Nn W) as (F & _ & L). destruct U as [_ U]. destruct threshold_unit as [_ T].
      split; [split; [exact F|lra]|lra].
  Qed.
  (** Once above the threshold, above it for good. *)
  Theorem step_stays (p h : binary_float prec emax) :
    funit p -> is_nan h = false -> halted_at s p = true ->
    halts_now s p h = true /\ next_p s p h = f_one /\ halted_at s (next_p s p h) = true.
  Proof.
    intros U Nn H. destruct (halts_now s p h) eqn:W.
    - destruct (halting_step p h U W) as [_ E]. split; [reflexivity|]. split; [exact E|]. rewrite E.
      destruct threshold_unit as [Ft Bt].
      unfold halted_at in *. cbn [v_ltb FloatNum] in *. apply ltb_R in H; auto; [|apply U].
      apply ltb_R; auto; [apply one_finite|]. rewrite one_R. destruct U as [_ U]. lra.
    - exfalso. destruct (running_step p h U Nn W) as (_ & _ & L). destruct threshold_unit as [Ft Bt].
      unfold halted_at in H. cbn [v_ltb FloatNum] in H. apply ltb_R in H; auto; [|apply U]. lra.
  Qed.
  Theorem weight_unit (p h : binary_float prec emax) :
    funit p -> is_nan h = false -> fnonneg (weight s p h : binary_float prec emax).
  Proof.
    intros U Nn. unfold weight. destruct (halts_now s p h).
    - destruct (sub_one prec emax H2 p U) as [[F B] _]. split; [exact F|apply B].
    - now apply scaled_nonneg.
  Qed.
End Step.
