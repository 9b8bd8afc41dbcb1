(** * More facts about the IEEE-754 instance: masks, thresholds, stagnation, counting *)
From Coq Require Import ZArith Reals Lia Lra Psatz.
From Flocq Require Import Core BinarySingleNaN Sterbenz.
From Verif Require Import Base PyTree Tensor Num FloatNum States Wf FloatSpec FloatFacts.

Section Rounding2.
  Context (prec emax : Z) {Hp : Prec_gt_0 prec} {Hm : Prec_lt_emax prec emax} (H2 : (2 <= prec)%Z).
  Notation fexp := (SpecFloat.fexp prec emax).
  Notation rnd := (round radix2 fexp ZnearestE).
  Notation format := (generic_format radix2 fexp).
  Local Open Scope R_scope.
  Local Instance fexp_ok2 : Valid_exp fexp := FLT_exp_valid (SpecFloat.emin prec emax) prec.
  Local Instance fexp_mono2 : Monotone_exp fexp := FLT_exp_monotone (SpecFloat.emin prec emax) prec.

  (** At most half a unit above an even mantissa is rounded away. *)
  Lemma absorb_even x e M : cexp radix2 fexp x = e -> Z.even M = true ->
    IZR M * bpow radix2 e <= x <= (IZR M + / 2) * bpow radix2 e -> rnd x = IZR M * bpow radix2 e.
  Proof.
    intros E Ev [A B]. unfold round, F2R, scaled_mantissa. cbn [Fnum Fexp]. rewrite E. do 2 f_equal.
    assert (Y : IZR M <= x * bpow radix2 (- e) <= IZR M + / 2).
    { pose proof (bpow_gt_0 radix2 (- e)) as Pos.
      assert (I : bpow radix2 e * bpow radix2 (- e) = 1) by (rewrite <- bpow_plus, Z.add_opp_diag_r; reflexivity).
      split; [replace (IZR M) with (IZR M * bpow radix2 e * bpow radix2 (- e)) by (rewrite Rmult_assoc, I; ring)
             |replace (IZR M + / 2) with ((IZR M + / 2) * bpow radix2 e * bpow radix2 (- e)) by (rewrite Rmult_assoc, I; ring)];
        apply Rmult_le_compat_r; lra. }
    set (y := x * bpow radix2 (- e)) in *.
    assert (Fl : Zfloor y = M) by (apply Zfloor_imp; rewrite plus_IZR; lra).
    unfold Znearest. rewrite Fl. destruct (Rcompare_spec (y - IZR M) (/2)); [reflexivity| |lra].
    rewrite Ev. reflexivity.
  Qed.
  Lemma format_Z m : (0 <= m <= 2 ^ prec)%Z -> format (IZR m).
  Proof.
    intros [A B]. assert (Hp0 : (0 < prec)%Z) by lia.
    assert (Em : (SpecFloat.emin prec emax <= 0)%Z).
    { unfold SpecFloat.emin. pose proof (emax_3 prec emax H2). lia. }
    destruct (Z.eq_dec m (2 ^ prec)) as [->|Ne].
    - change (2 ^ prec)%Z with (radix2 ^ prec)%Z. rewrite IZR_Zpower by lia. apply generic_format_bpow.
      unfold SpecFloat.fexp. lia.
    - apply generic_format_FLT. exists (Float radix2 m 0).
      + unfold F2R. cbn. ring.
      + cbn [Fnum]. rewrite Z.abs_eq by lia. change (radix_val radix2) with 2%Z. lia.
      + cbn [Fexp]. exact Em.
  Qed.
  Lemma rnd_Z m : (0 <= m <= 2 ^ prec)%Z -> rnd (IZR m) = IZR m.
  Proof. intros H. apply round_generic; [apply valid_rnd_N|now apply format_Z]. Qed.
  Lemma rnd_saturated : rnd (IZR (2 ^ prec) + 1) = IZR (2 ^ prec).
  Proof.
    assert (Q : IZR (2 ^ prec) = bpow radix2 prec) by (apply (IZR_Zpower radix2); lia).
    assert (Q1 : IZR (2 ^ (prec - 1)) = bpow radix2 (prec - 1)) by (apply (IZR_Zpower radix2); lia).
    assert (D : bpow radix2 prec = IZR (2 ^ (prec - 1)) * bpow radix2 1).
    { rewrite Q1, <- bpow_plus. f_equal. lia. }
    rewrite Q.
    assert (L : 1 < bpow radix2 prec) by (change 1 with (bpow radix2 0); apply bpow_lt; lia).
    assert (C : cexp radix2 fexp (bpow radix2 prec + 1) = 1%Z).
    { unfold cexp. rewrite (mag_unique radix2 _ (prec + 1)).
      - unfold SpecFloat.fexp, SpecFloat.emin. pose proof (emax_3 prec emax H2). lia.
      - rewrite Rabs_pos_eq by lra. replace (prec + 1 - 1)%Z with prec by lia. rewrite bpow_plus.
        change (bpow radix2 1) with 2. lra. }
    rewrite (absorb_even (bpow radix2 prec + 1) 1 (2 ^ (prec - 1)) C).
    - symmetry. exact D.
    - apply even_pow. lia.
    - rewrite D. change (bpow radix2 1) with 2. lra.
  Qed.
  Lemma rnd_stuck x : 0 <= x <= half_gap prec -> rnd (/ 2 + x) = / 2.
  Proof.
    intros [A B]. pose proof (half_gap_small prec H2) as Sm.
    assert (C : cexp radix2 fexp (/ 2 + x) = (- prec)%Z) by (apply cexp_half; auto; lra).
    assert (Q1 : IZR (2 ^ (prec - 1)) = bpow radix2 (prec - 1)) by (apply (IZR_Zpower radix2); lia).
    assert (D : IZR (2 ^ (prec - 1)) * bpow radix2 (- prec) = / 2).
    { rewrite Q1, <- bpow_plus. replace (prec - 1 + - prec)%Z with (-1)%Z by lia. reflexivity. }
    assert (G : half_gap prec = / 2 * bpow radix2 (- prec)).
    { unfold half_gap. replace (- prec - 1)%Z with (-1 + - prec)%Z by lia. rewrite bpow_plus. reflexivity. }
    rewrite (absorb_even (/ 2 + x) (- prec) (2 ^ (prec - 1)) C).
    - exact D.
    - destruct (Z.eq_dec prec 2) as [->|]; [reflexivity|]. apply even_pow. lia.
    - rewrite Rmult_plus_distr_r, D, <- G. lra.
  Qed.
  (** A noticeable addend always moves the sum. *)
  Lemma rnd_moves p x : 0 <= p -> bpow radix2 (- prec) <= x -> p + x < 1 -> p + half_gap prec <= rnd (p + x).
  Proof.
    intros A B C. pose proof (bpow_gt_0 radix2 (- prec)) as Pos.
    assert (G : half_gap prec = / 2 * bpow radix2 (- prec)).
    { unfold half_gap. replace (- prec - 1)%Z with (-1 + - prec)%Z by lia. rewrite bpow_plus. reflexivity. }
    assert (E : Rabs (rnd (p + x) - (p + x)) <= / 2 * ulp radix2 fexp (p + x)) by (apply error_le_half_ulp; apply fexp_ok2).
    assert (U : ulp radix2 fexp (p + x) <= bpow radix2 (- prec)).
    { rewrite ulp_neq_0 by lra. apply bpow_le. unfold cexp.
      rewrite <- (fexp_0 prec emax H2). apply fexp_mono2. apply mag_le_bpow; [lra|]. rewrite Rabs_pos_eq by lra. exact C. }
    apply Rabs_le_inv in E. lra.
  Qed.
  Lemma format_half : format (/ 2).
  Proof.
    change (/ 2) with (bpow radix2 (-1)). apply generic_format_bpow. change (-1 + 1)%Z with 0%Z.
    rewrite (fexp_0 prec emax H2). lia.
  Qed.
  (** the number just below one *)
  Lemma format_pred : format (1 - bpow radix2 (- prec)).
  Proof.
    apply generic_format_FLT. exists (Float radix2 (2 ^ prec - 1) (- prec)).
    - unfold F2R. cbn [Fnum Fexp]. rewrite minus_IZR.
      assert (Q : IZR (2 ^ prec) = bpow radix2 prec) by (apply (IZR_Zpower radix2); lia).
      rewrite Q, Rmult_minus_distr_r, <- bpow_plus, Z.add_opp_diag_r. cbn [bpow]. ring.
    - cbn [Fnum]. assert (0 < 2 ^ prec)%Z by (apply Z.pow_pos_nonneg; lia).
      rewrite Z.abs_eq by lia. change (radix_val radix2) with 2%Z. lia.
    - cbn [Fexp]. unfold SpecFloat.emin. pose proof (emax_3 prec emax H2). lia.
  Qed.
End Rounding2.

Section Float2.
  Context (prec emax : Z) {Hp : Prec_gt_0 prec} {Hm : Prec_lt_emax prec emax} (H2 : (2 <= prec)%Z).
  Notation N := (FloatNum prec emax).
  Notation bf := (binary_float prec emax).
  Notation fexp := (SpecFloat.fexp prec emax).
  Notation rnd := (round radix2 fexp ZnearestE).
  Local Open Scope R_scope.

  (** ** Multiplication by a mask *)
  Lemma mul_one_l (v : bf) : f_mul f_one v = v.
  Proof.
    destruct (is_finite v) eqn:F.
    - pose proof (Bmult_correct prec emax Hp Hm mode_NE f_one v) as X. cbn [round_mode] in X.
      rewrite (one_R prec emax), Rmult_1_l in X.
      assert (R : rnd (B2R v) = B2R v) by (apply round_generic; [apply valid_rnd_N|apply generic_format_B2R]).
      rewrite R in X. rewrite Rlt_bool_true in X by apply abs_B2R_lt_emax.
      destruct X as (X1 & X2 & X3). rewrite (one_finite prec emax), F in X2. cbn in X2.
      apply B2R_Bsign_inj; auto. fold (f_mul f_one v) in *. rewrite X3.
      + rewrite (Bsign_Bone prec emax). apply Bool.xorb_false_l.
      + now apply finite_not_nan.
    - pose proof (Bsign_Bone prec emax Hp Hm) as S1. pose proof (is_finite_strict_Bone prec emax Hp Hm) as F2.
      unfold f_mul, f_one. revert S1 F2. generalize (@Bone prec emax Hp Hm).
      intros [s|s| |s m e Hb] S1 F2; try discriminate. cbn in S1. subst s.
      destruct v as [s|s| |s m' e' Hb']; try discriminate; cbn; try reflexivity; destruct s; reflexivity.
  Qed.
  Lemma mul_one_r (v : bf) : f_mul v f_one = v.
  Proof.
    destruct (is_finite v) eqn:F.
    - pose proof (Bmult_correct prec emax Hp Hm mode_NE v f_one) as X. cbn [round_mode] in X.
      rewrite (one_R prec emax), Rmult_1_r in X.
      assert (R : rnd (B2R v) = B2R v) by (apply round_generic; [apply valid_rnd_N|apply generic_format_B2R]).
      rewrite R in X. rewrite Rlt_bool_true in X by apply abs_B2R_lt_emax.
      destruct X as (X1 & X2 & X3). rewrite (one_finite prec emax), F in X2. cbn in X2.
      apply B2R_Bsign_inj; auto. fold (f_mul v f_one) in *. rewrite X3.
      + rewrite (Bsign_Bone prec emax). apply Bool.xorb_false_r.
      + now apply finite_not_nan.
    - pose proof (Bsign_Bone prec emax Hp Hm) as S1. pose proof (is_finite_strict_Bone prec emax Hp Hm) as F2.
      unfold f_mul, f_one. revert S1 F2. generalize (@Bone prec emax Hp Hm).
      intros [s|s| |s m e Hb] S1 F2; try discriminate. cbn in S1. subst s.
      destruct v as [s|s| |s m' e' Hb']; try discriminate; cbn; try reflexivity. destruct s; reflexivity.
  Qed.
  Lemma mul_zero_l (v : bf) : is_finite v = true -> exists sg, f_mul f_zero v = B754_zero sg.
  Proof. destruct v; cbn; try discriminate; eauto. Qed.
  Lemma mul_zero_r (v : bf) : is_finite v = true -> exists sg, f_mul v f_zero = B754_zero sg.
  Proof. destruct v; cbn; try discriminate; eauto. Qed.
  Lemma mul_zero_nonfinite (v : bf) : is_finite v = false -> f_mul f_zero v = B754_nan.
  Proof. destruct v; cbn; try discriminate; reflexivity. Qed.
  Lemma kept_unit (s : state N) (p v : bf) : funit v -> funit (kept s p v : bf).
  Proof.
    intros [F U]. unfold kept, v_of_bool. cbn [v_mul v_one v_zero FloatNum]. destruct (negb (halted_at s p)).
    - rewrite mul_one_r. now split.
    - destruct (mul_zero_r v F) as [sg ->]. split; [reflexivity|]. cbn. lra.
  Qed.

  (** ** The threshold *)
  Lemma of_py_one : f_of_py (Bone : pyfloat) = (f_one : bf).
  Proof.
    destruct (of_py_R prec emax H2 (Bone : pyfloat)) as [[F _] R].
    - apply is_finite_Bone.
    - rewrite Bone_correct. lra.
    - apply eq_one; [exact F|]. rewrite R, Bone_correct. now apply rnd_1.
  Qed.
  Lemma threshold_R (s : state N) : eps_ok (epsilon s) ->
    B2R (threshold s : bf) =
    rnd (round radix2 (SpecFloat.fexp 53 1024) ZnearestE (1 - B2R (epsilon s : pyfloat))).
  Proof.
    intros He. unfold threshold. cbn [v_of_scl s_one_sub FloatNum].
    destruct (sub_one 53 1024 ltac:(lia) (epsilon s : pyfloat) He) as [[F B] E].
    destruct (of_py_R prec emax H2 _ F B) as [_ Q]. etransitivity; [exact Q|]. f_equal. exact E.
  Qed.
  Lemma threshold_one (s : state N) : (prec <= 53)%Z -> eps_ok (epsilon s) ->
    B2R (epsilon s : pyfloat) <= bpow radix2 (- prec - 1) -> threshold s = (f_one : bf).
  Proof.
    intros H53 He L. apply eq_one; [now apply threshold_unit|]. rewrite (threshold_R s He).
    destruct He as [_ [He _]]. set (e := B2R (epsilon s : pyfloat)) in *.
    apply near_one_below; auto. split.
    - destruct (Z.eq_dec prec 53) as [Eq|Ne].
      + rewrite (near_one_below 53 1024 ltac:(lia)); [pose proof (half_gap_pos prec); lra|].
        unfold half_gap. rewrite <- Eq. lra.
      + apply rnd_ge_fmt; [reflexivity| |unfold half_gap; lra].
        apply generic_format_FLT. exists (Float radix2 (2 ^ (prec + 1) - 1) (- prec - 1)).
        * unfold F2R, half_gap. cbn [Fnum Fexp]. rewrite minus_IZR.
          assert (Q : IZR (2 ^ (prec + 1)) = bpow radix2 (prec + 1)) by (apply (IZR_Zpower radix2); lia).
          rewrite Q, Rmult_minus_distr_r, <- bpow_plus. replace (prec + 1 + (- prec - 1))%Z with 0%Z by lia.
          cbn [bpow]. ring.
        * cbn [Fnum]. assert (0 < 2 ^ (prec + 1))%Z by (apply Z.pow_pos_nonneg; lia).
          rewrite Z.abs_eq by lia. change (radix_val radix2) with 2%Z.
          assert (2 ^ (prec + 1) <= 2 ^ 53)%Z by (apply Z.pow_le_mono_r; lia). lia.
        * cbn [Fexp]. change (SpecFloat.emin 53 1024) with (-1074)%Z. lia.
    - apply rnd_le_fmt; [reflexivity|apply (format_1 53 1024); lia|lra].
  Qed.
  Lemma threshold_lt_one (s : state N) : (prec <= 53)%Z -> eps_ok (epsilon s) ->
    bpow radix2 (- prec) <= B2R (epsilon s : pyfloat) -> B2R (threshold s : bf) < 1.
  Proof.
    intros H53 He L. rewrite (threshold_R s He). set (e := B2R (epsilon s : pyfloat)) in *.
    pose proof (bpow_gt_0 radix2 (- prec)).
    apply Rle_lt_trans with (1 - bpow radix2 (- prec)); [|lra].
    apply rnd_le_fmt; [exact Hp|now apply format_pred|].
    apply rnd_le_fmt; [reflexivity| |lra].
    apply generic_format_FLT. exists (Float radix2 (2 ^ prec - 1) (- prec)).
    - unfold F2R. cbn [Fnum Fexp]. rewrite minus_IZR.
      assert (Q : IZR (2 ^ prec) = bpow radix2 prec) by (apply (IZR_Zpower radix2); lia).
      rewrite Q, Rmult_minus_distr_r, <- bpow_plus, Z.add_opp_diag_r. cbn [bpow]. ring.
    - cbn [Fnum]. assert (0 < 2 ^ prec)%Z by (apply Z.pow_pos_nonneg; lia).
      rewrite Z.abs_eq by lia. change (radix_val radix2) with 2%Z.
      assert (2 ^ prec <= 2 ^ 53)%Z by (apply Z.pow_le_mono_r; lia). lia.
    - cbn [Fexp]. change (SpecFloat.emin 53 1024) with (-1074)%Z. lia.
  Qed.
  Lemma threshold_ge_half (s : state N) : eps_ok (epsilon s) -> B2R (epsilon s : pyfloat) <= / 2 ->
    / 2 <= B2R (threshold s : bf).
  Proof.
    intros He L. rewrite (threshold_R s He).
    apply rnd_ge_fmt; [exact Hp|now apply format_half|].
    apply rnd_ge_fmt; [reflexivity|apply (format_half 53 1024); lia|lra].
  Qed.

  (** ** Counting *)
  Lemma count_step (n : bf) k : (0 <= k <= 2 ^ prec)%Z -> counts n k ->
    counts (f_add n f_one) (Z.min (k + 1) (2 ^ prec)).
  Proof.
    intros Hk [F R].
    assert (E : rnd (B2R n + B2R (f_one : bf)) = IZR (Z.min (k + 1) (2 ^ prec))).
    { rewrite R, one_R. destruct (Z.eq_dec k (2 ^ prec)) as [->|Ne].
      - rewrite Z.min_r by lia. now apply rnd_saturated.
      - rewrite Z.min_l by lia. rewrite <- plus_IZR. apply rnd_Z; auto. lia. }
    assert (L : Rabs (rnd (B2R n + B2R (f_one : bf))) < bpow radix2 emax).
    { rewrite E. rewrite Rabs_pos_eq by (apply IZR_le; lia).
      apply Rle_lt_trans with (IZR (2 ^ prec)); [apply IZR_le; lia|].
      change (2 ^ prec)%Z with (radix2 ^ prec)%Z. rewrite IZR_Zpower by lia. apply bpow_lt. exact Hm. }
    destruct (add_finite prec emax n f_one F (one_finite prec emax) L) as [G1 G2].
    split; [exact G1|]. rewrite G2. exact E.
  Qed.

  (** ** Effective halting probabilities *)
  Lemma clip_id (h : bf) : funit h -> B2R (f_min f_one (f_max f_zero h)) = B2R h.
  Proof.
    intros [F [A B]]. pose proof (finite_not_nan prec emax h F) as Nn. unfold f_min.
    rewrite (finite_not_nan _ _ f_one (one_finite prec emax)).
    destruct (f_max_0 prec emax h Nn) as [(_ & -> & Pos)|[E|E]].
    - rewrite Nn. destruct (Bltb h f_one) eqn:L; [reflexivity|].
      apply ltb_R_false in L; auto using one_finite. rewrite one_R in *. lra.
    - rewrite E. cbn [is_nan f_zero]. fold (@f_zero prec emax).
      assert (Z0 : B2R h = 0).
      { unfold f_max, f_zero in E. cbn [is_nan] in E. rewrite Nn in E.
        destruct (Bltb (B754_zero false) h) eqn:L.
        - now rewrite E.
        - apply ltb_R_false in L; auto. cbn in L. lra. }
      replace (Bltb f_zero f_one) with true; [cbn; lra|]. symmetry. apply ltb_R; auto using one_finite.
      rewrite one_R. cbn. lra.
    - rewrite E in F. discriminate.
  Qed.
End Float2.
