(** * IEEE-754: monotonicity of a step, rounding errors, and the exact place where thresholds lost_epsilon *)
From Coq Require Import ZArith Reals Lia Lra Psatz.
From Flocq Require Import Core BinarySingleNaN Sterbenz Relative Plus_error.
From Verif Require Import Base PyTree Tensor Num FloatNum States Wf FloatSpec FloatFacts FloatFacts2.

Section Rounding3.
  Context (prec emax : Z) {Hp : Prec_gt_0 prec} {Hm : Prec_lt_emax prec emax} (H2 : (2 <= prec)%Z).
  Notation fexp := (SpecFloat.fexp prec emax).
  Notation rnd := (round radix2 fexp ZnearestE).
  Notation format := (generic_format radix2 fexp).
  Local Open Scope R_scope.
  Local Instance fexp_ok3 : Valid_exp fexp := FLT_exp_valid (SpecFloat.emin prec emax) prec.
  Local Instance fexp_mono3 : Monotone_exp fexp := FLT_exp_monotone (SpecFloat.emin prec emax) prec.

  (** On the unit interval rounding moves a number by at most half a unit in the last place below one. *)
  Lemma rnd_error_unit x : 0 <= x <= 1 -> Rabs (rnd x - x) <= half_gap prec.
  Proof.
    intros [A B]. pose proof (half_gap_pos prec) as Pos.
    destruct (Rle_lt_or_eq_dec _ _ B) as [Lt| ->];
      [|rewrite (rnd_1 prec emax H2), Rminus_diag_eq, Rabs_R0 by reflexivity; lra].
    destruct (Rle_lt_or_eq_dec _ _ A) as [Gt|<-];
      [|rewrite (rnd_0 prec emax), Rminus_diag_eq, Rabs_R0 by reflexivity; lra].
    eapply Rle_trans; [apply error_le_half_ulp; apply fexp_ok3|].
    assert (G : half_gap prec = / 2 * bpow radix2 (- prec)).
    { unfold half_gap. replace (- prec - 1)%Z with (-1 + - prec)%Z by lia. rewrite bpow_plus. reflexivity. }
    rewrite G. apply Rmult_le_compat_l; [lra|]. rewrite ulp_neq_0 by lra. apply bpow_le. unfold cexp.
    rewrite <- (fexp_0 prec emax H2). apply fexp_mono3. apply mag_le_bpow; [lra|]. rewrite Rabs_pos_eq by lra. exact Lt.
  Qed.
  (** What is below the middle between one and its neighbour does not become one. *)
  Lemma rnd_below_one x : 0 <= x -> x < 1 - half_gap prec -> rnd x < 1.
  Proof.
    intros A B. pose proof (half_gap_pos prec). assert (E := rnd_error_unit x ltac:(lra)).
    apply Rabs_le_inv in E. lra.
  Qed.
  Lemma absorb_even_below x e M : cexp radix2 fexp x = e -> Z.even M = true ->
    (IZR M - / 2) * bpow radix2 e <= x <= IZR M * bpow radix2 e -> rnd x = IZR M * bpow radix2 e.
  Proof.
    intros E Ev [A B]. unfold round, F2R, scaled_mantissa. cbn [Fnum Fexp]. rewrite E. do 2 f_equal.
    assert (Y : IZR M - / 2 <= x * bpow radix2 (- e) <= IZR M).
    { pose proof (bpow_gt_0 radix2 (- e)) as Pos.
      assert (I : bpow radix2 e * bpow radix2 (- e) = 1) by (rewrite <- bpow_plus, Z.add_opp_diag_r; reflexivity).
      split; [replace (IZR M - / 2) with ((IZR M - / 2) * bpow radix2 e * bpow radix2 (- e)) by (rewrite Rmult_assoc, I; ring)
             |replace (IZR M) with (IZR M * bpow radix2 e * bpow radix2 (- e)) by (rewrite Rmult_assoc, I; ring)];
        apply Rmult_le_compat_r; lra. }
    set (y := x * bpow radix2 (- e)) in *.
    destruct (Rle_lt_or_eq_dec _ _ (proj2 Y)) as [Lt|Eq]; [|rewrite Eq; apply Znearest_imp; rewrite Rminus_diag_eq, Rabs_R0 by reflexivity; lra].
    assert (Fl : Zfloor y = (M - 1)%Z) by (apply Zfloor_imp; rewrite minus_IZR, plus_IZR, minus_IZR; lra).
    assert (Ce : Zceil y = M) by (apply Zceil_imp; rewrite minus_IZR; lra).
    unfold Znearest. rewrite Fl, Ce, minus_IZR.
    destruct (Rcompare_spec (y - (IZR M - 1)) (/2)); [lra| |reflexivity].
    replace (Z.even (M - 1)) with false; [reflexivity|]. rewrite Z.even_sub, Ev. reflexivity.
  Qed.
  (** An addend of more than half a unit in the last place below one moves every sum. *)
  Lemma rnd_moves_low p x : (3 <= prec)%Z -> 0 <= p -> half_gap prec < x -> p + x < / 2 -> p + / 2 * half_gap prec <= rnd (p + x).
  Proof.
    intros H3 A B C. pose proof (half_gap_pos prec) as Pos.
    assert (E : Rabs (rnd (p + x) - (p + x)) <= / 2 * ulp radix2 fexp (p + x)) by (apply error_le_half_ulp; apply fexp_ok3).
    assert (U : ulp radix2 fexp (p + x) <= half_gap prec).
    { rewrite ulp_neq_0 by lra. apply bpow_le. unfold cexp.
      apply Z.le_trans with (fexp (-1)%Z).
      - apply fexp_mono3. apply mag_le_bpow; [lra|]. rewrite Rabs_pos_eq by lra. exact C.
      - unfold SpecFloat.fexp, SpecFloat.emin. unfold Prec_lt_emax in Hm. lia. }
    apply Rabs_le_inv in E. lra.
  Qed.
  Lemma rnd_moves_high p x : format p -> / 2 <= p -> half_gap prec < x -> p + x < 1 -> p + half_gap prec <= rnd (p + x).
  Proof.
    intros F A B C. pose proof (half_gap_pos prec) as Pos.
    assert (Sp : succ radix2 fexp p = p + 2 * half_gap prec).
    { rewrite succ_eq_pos by lra. rewrite ulp_neq_0 by lra. rewrite cexp_half by (auto; lra).
      unfold half_gap. replace (- prec - 1)%Z with (-1 + - prec)%Z by lia. rewrite bpow_plus. change (bpow radix2 (-1)) with (/ 2). lra. }
    apply Rle_trans with (succ radix2 fexp p); [rewrite Sp; lra|].
    apply round_N_ge_midp; [apply fexp_ok3|apply generic_format_succ; [apply fexp_ok3|exact F]|].
    rewrite pred_succ by (try apply fexp_ok3; exact F). rewrite Sp. lra.
  Qed.
End Rounding3.

Section Float3.
  Context (prec emax : Z) {Hp : Prec_gt_0 prec} {Hm : Prec_lt_emax prec emax} (H2 : (2 <= prec)%Z).
  Notation N := (FloatNum prec emax).
  Notation bf := (binary_float prec emax).
  Notation fexp := (SpecFloat.fexp prec emax).
  Notation rnd := (round radix2 fexp ZnearestE).
  Local Open Scope R_scope.

  (** ** Where the threshold becomes one *)
  Lemma threshold_is_one (s : state N) : (prec <= 53)%Z -> (prec <> 52)%Z -> eps_ok (epsilon s) ->
    B2R (epsilon s : pyfloat) <= lost_epsilon prec -> threshold s = (f_one : bf).
  Proof.
    intros H53 H52 He L. apply eq_one; [now apply threshold_unit|]. rewrite (threshold_R prec emax H2 s He).
    destruct He as [_ [He _]]. set (e := B2R (epsilon s : pyfloat)) in *. unfold lost_epsilon in L.
    pose proof (half_gap_pos prec). pose proof (half_gap_small prec H2).
    apply near_one_below; auto. split; [|apply rnd_le_fmt; [reflexivity|apply (format_1 53 1024); lia|lra]].
    destruct (Z.eqb_spec prec 53) as [Eq|Ne].
    - rewrite (near_one_below 53 1024 ltac:(lia)); [lra|]. unfold half_gap. change (- (53) - 1)%Z with (-54)%Z. lra.
    - (* the tie is broken upwards *)
      assert (B54 : bpow radix2 (-54) <= / 16).
      { change (/ 16) with (bpow radix2 (-4)). apply bpow_le. lia. }
      apply Rle_trans with (round radix2 (SpecFloat.fexp 53 1024) ZnearestE (1 - half_gap prec - bpow radix2 (-54)));
        [|apply rnd_le; [reflexivity|unfold half_gap; lra]].
      apply Req_le. symmetry.
      assert (Q : (1 - half_gap prec) = IZR (2 ^ 53 - 2 ^ (52 - prec)) * bpow radix2 (-53)).
      { rewrite minus_IZR, Rmult_minus_distr_r. change (2 ^ 53)%Z with (radix2 ^ 53)%Z. rewrite IZR_Zpower by lia.
        change (2 ^ (52 - prec))%Z with (radix2 ^ (52 - prec))%Z. rewrite IZR_Zpower by lia.
        rewrite <- !bpow_plus. unfold half_gap. replace (52 - prec + -53)%Z with (- prec - 1)%Z by lia. reflexivity. }
      rewrite (absorb_even_below 53 1024 _ (-53) (2 ^ 53 - 2 ^ (52 - prec))).
      + symmetry. exact Q.
      + apply (cexp_half 53 1024); [lia|]. pose proof (bpow_gt_0 radix2 (-54)). lra.
      + rewrite Z.even_sub, !even_pow by lia. reflexivity.
      + assert (I : / 2 * bpow radix2 (-53) = bpow radix2 (-54)).
        { change (/ 2) with (bpow radix2 (-1)). now rewrite <- bpow_plus. }
        rewrite Rmult_minus_distr_r, <- Q, I. pose proof (bpow_gt_0 radix2 (-54)). lra.
  Qed.
  Lemma threshold_below_one (s : state N) : (prec <= 53)%Z -> eps_ok (epsilon s) ->
    lost_epsilon prec < B2R (epsilon s : pyfloat) -> B2R (threshold s : bf) < 1.
  Proof.
    intros H53 He L. rewrite (threshold_R prec emax H2 s He).
    destruct He as [_ He]. set (e := B2R (epsilon s : pyfloat)) in *. unfold lost_epsilon in L.
    assert (U : 0 <= round radix2 (SpecFloat.fexp 53 1024) ZnearestE (1 - e) <= 1) by (apply (rnd_unit 53 1024); [lia|lra]).
    destruct (Z.eqb_spec prec 53) as [Eq|Ne].
    - set (y := round radix2 (SpecFloat.fexp 53 1024) ZnearestE (1 - e)) in *.
      assert (F53 : generic_format radix2 (SpecFloat.fexp 53 1024) y).
      { apply generic_format_round; [apply (FLT_exp_valid (SpecFloat.emin 53 1024) 53)|apply valid_rnd_N]. }
      assert (Lt : y < 1).
      { apply (rnd_below_one 53 1024); [lia|lra|]. unfold half_gap. change (- (53) - 1)%Z with (-54)%Z. lra. }
      assert (Le : y <= 1 - bpow radix2 (- prec)).
      { change 1 with (bpow radix2 0) in Lt |- *.
        pose proof (pred_ge_gt radix2 (SpecFloat.fexp 53 1024) y (bpow radix2 0) F53 (format_1 53 1024 ltac:(lia)) Lt) as X.
        rewrite (pred_bpow radix2 (SpecFloat.fexp 53 1024)) in X. rewrite Eq. exact X. }
      pose proof (bpow_gt_0 radix2 (- prec)).
      apply Rle_lt_trans with (1 - bpow radix2 (- prec)); [|lra].
      apply rnd_le_fmt; [exact Hp|now apply format_pred|exact Le].
    - apply rnd_below_one; auto; [apply U|].
      assert (E := rnd_error_unit 53 1024 ltac:(lia) (1 - e) ltac:(lra)). apply Rabs_le_inv in E.
      unfold half_gap in *. change (- (53) - 1)%Z with (-54)%Z in E. lra.
  Qed.

  (** ** Conversion of Python floats *)
  Lemma of_py_finite (x : pyfloat) : is_finite (f_of_py x : bf) = true ->
    is_finite x = true /\ B2R (f_of_py x : bf) = rnd (B2R x).
  Proof.
    destruct x as [sg|sg| |sg m e Hb]; cbn [f_of_py is_finite]; try discriminate.
    - intros _. split; [reflexivity|]. cbn [B2R]. now rewrite (rnd_0 prec emax).
    - intros F. split; [reflexivity|].
      pose proof (binary_normalize_correct prec emax Hp Hm mode_NE (cond_Zopp sg (Zpos m)) e sg) as X. cbn [round_mode] in X.
      destruct (Rlt_bool _ _); [apply X|].
      destruct (binary_normalize prec emax Hp Hm mode_NE (cond_Zopp sg (Zpos m)) e sg); cbn in F, X; discriminate.
  Qed.
  Lemma of_py_mono (x y : pyfloat) : is_finite (f_of_py x : bf) = true -> is_finite (f_of_py y : bf) = true ->
    B2R x <= B2R y -> B2R (f_of_py x : bf) <= B2R (f_of_py y : bf).
  Proof.
    intros Fx Fy L. rewrite (proj2 (of_py_finite x Fx)), (proj2 (of_py_finite y Fy)). now apply rnd_le.
  Qed.

  (** ** Clamping *)
  Notation clip v := (f_min f_one (f_max f_zero v)).
  Lemma clip_R (v : bf) : is_finite v = true -> B2R (clip v) = Rmin 1 (Rmax 0 (B2R v)).
  Proof.
    intros F. pose proof (finite_not_nan prec emax v F) as Nn. unfold f_min.
    rewrite (finite_not_nan _ _ f_one (one_finite prec emax)).
    assert (Z1 : Bltb (f_zero : bf) f_one = true).
    { apply ltb_R; [reflexivity|apply one_finite|]. rewrite one_R. cbn. lra. }
    destruct (f_max_0 prec emax v Nn) as [(_ & -> & Pos)|[E|E]].
    - rewrite Nn, (Rmax_right 0) by lra. destruct (Bltb v f_one) eqn:L.
      + apply ltb_R in L; auto using one_finite. rewrite one_R in L. rewrite Rmin_right; lra.
      + apply ltb_R_false in L; auto using one_finite. rewrite one_R in *. rewrite Rmin_left; lra.
    - rewrite E. cbn [is_nan f_zero]. fold (@f_zero prec emax). rewrite Z1.
      assert (L0 : B2R v <= 0).
      { unfold f_max, f_zero in E. cbn [is_nan] in E. rewrite Nn in E.
        destruct (Bltb (B754_zero false) v) eqn:L.
        - rewrite E. cbn. lra.
        - apply ltb_R_false in L; auto. }
      rewrite Rmax_left by lra. rewrite Rmin_right by lra. reflexivity.
    - rewrite E in F. discriminate.
  Qed.
  Lemma inf_cases (v : bf) : is_nan v = false -> is_finite v = false -> v = B754_infinity false \/ v = B754_infinity true.
  Proof. destruct v as [|[|]| |]; cbn; try discriminate; auto. Qed.
  Lemma clip_mono (v w : bf) : Bleb v w = true -> B2R (clip v) <= B2R (clip w).
  Proof.
    intros L.
    assert (Nv : is_nan v = false /\ is_nan w = false).
    { destruct v as [[|]|[|]| |[|]], w as [[|]|[|]| |[|]]; cbn in *; try discriminate; auto. }
    destruct (clip_unit prec emax v (proj1 Nv)) as [_ [A B]]. destruct (clip_unit prec emax w (proj2 Nv)) as [_ [A' B']].
    destruct (is_finite v) eqn:Fv, (is_finite w) eqn:Fw.
    - rewrite (clip_R v Fv), (clip_R w Fw). rewrite Bleb_correct in L by assumption.
      destruct (Rle_bool_spec (B2R v) (B2R w)) as [Le|]; [|discriminate].
      apply Rle_min_compat_l. now apply Rle_max_compat_l.
    - assert (w = B754_infinity false).
      { destruct (inf_cases w (proj2 Nv) Fw) as [->| ->]; [reflexivity|].
        clear - L Fv. destruct v as [[|]|[|]| |[|]]; cbn in L, Fv; discriminate. }
      subst w. replace (clip (B754_infinity false : bf)) with (f_one : bf); [rewrite one_R; exact B|].
      symmetry. assert (M : f_max (f_zero : bf) (B754_infinity false) = B754_infinity false) by reflexivity. rewrite M.
      unfold f_min. rewrite (finite_not_nan _ _ f_one (one_finite prec emax)). cbn [is_nan].
      replace (Bltb _ _) with false; [reflexivity|].
      generalize (one_finite prec emax). destruct (f_one : bf) as [sg|sg| |sg m e Hb]; cbn; try discriminate; destruct sg; reflexivity.
    - assert (v = B754_infinity true).
      { destruct (inf_cases v (proj1 Nv) Fv) as [->| ->]; [|reflexivity].
        clear - L Fw. destruct w as [[|]|[|]| |[|]]; cbn in L, Fw; discriminate. }
      subst v. assert (M : f_max (f_zero : bf) (B754_infinity true) = f_zero) by reflexivity. rewrite M.
      unfold f_min at 1. rewrite (finite_not_nan _ _ f_one (one_finite prec emax)). cbn [is_nan f_zero].
      replace (Bltb _ _) with true; [exact A'|]. symmetry. apply ltb_R; [reflexivity|apply one_finite|]. rewrite one_R. cbn. lra.
    - destruct (inf_cases v (proj1 Nv) Fv) as [->| ->];
        [destruct (inf_cases w (proj2 Nv) Fw) as [->| ->]; [apply Rle_refl|discriminate L]|].
      assert (M : f_max (f_zero : bf) (B754_infinity true) = f_zero) by reflexivity. rewrite M.
      unfold f_min at 1. rewrite (finite_not_nan _ _ f_one (one_finite prec emax)). cbn [is_nan f_zero].
      replace (Bltb _ _) with true; [exact A'|]. symmetry. apply ltb_R; [reflexivity|apply one_finite|]. rewrite one_R. cbn. lra.
  Qed.

  (** ** Steps *)
  Lemma scaled_R (s : state N) (v : bf) : dep_ok prec emax (depression_constant s) -> is_nan v = false ->
    B2R (scaled s v : bf) = rnd (B2R (f_of_py (depression_constant s : pyfloat) : bf) * B2R (clip v)).
  Proof. intros Hd Nn. exact (proj1 (proj2 (mul_unit prec emax _ _ Hd (clip_unit prec emax v Nn)))). Qed.
  (** The halting test, overflow included, in real numbers. *)
  Lemma halts_R (s : state N) (p v : bf) : eps_ok (epsilon s) -> dep_ok prec emax (depression_constant s) ->
    funit p -> is_nan v = false ->
    (halts_now s p v = true <-> B2R (threshold s : bf) < rnd (B2R p + B2R (scaled s v : bf))).
  Proof.
    intros He Hd [Fp [Ap Bp]] Nn. pose proof (threshold_unit prec emax H2 s He) as [Tf Tb].
    destruct (scaled_nonneg prec emax s Hd v Nn) as [Fs As].
    unfold halts_now. cbn [v_ltb v_add FloatNum]. rewrite (Rplus_comm (B2R p)).
    destruct (Rlt_or_le (Rabs (rnd (B2R (scaled s v : bf) + B2R p))) (bpow radix2 emax)) as [L|L].
    - destruct (add_finite prec emax (scaled s v) p Fs Fp L) as [G1 G2]. rewrite <- G2. now apply ltb_R.
    - split; intros _.
      + rewrite Rabs_pos_eq in L.
        * pose proof (one_lt_emax prec emax H2). lra.
        * rewrite <- (rnd_0 prec emax). apply rnd_le; [exact Hp|lra].
      + destruct (add_nonneg prec emax (scaled s v) p (conj Fs As) (conj Fp Ap)) as [[G1 G2]|I].
        * exfalso. rewrite <- G2 in L. pose proof (abs_B2R_lt_emax _ _ (f_add (scaled s v) p)). lra.
        * rewrite I. revert Tf. generalize (threshold s : bf). intros [[|]|[|]| |[|] m e Hb]; cbn; intros; try discriminate; reflexivity.
  Qed.
  Lemma halted_R (s : state N) (p : bf) : eps_ok (epsilon s) -> funit p ->
    (halted_at s p = true <-> B2R (threshold s : bf) < B2R p).
  Proof.
    intros He [Fp _]. pose proof (threshold_unit prec emax H2 s He) as [Tf _]. unfold halted_at. cbn [v_ltb FloatNum].
    now apply ltb_R.
  Qed.
  Lemma threshold_mono (s1 s2 : state N) : eps_ok (epsilon s1) -> eps_ok (epsilon s2) ->
    B2R (epsilon s1 : pyfloat) <= B2R (epsilon s2 : pyfloat) -> B2R (threshold s2 : bf) <= B2R (threshold s1 : bf).
  Proof.
    intros E1 E2 L. rewrite (threshold_R prec emax H2 s1 E1), (threshold_R prec emax H2 s2 E2).
    apply rnd_le; [exact Hp|]. apply rnd_le; [reflexivity|lra].
  Qed.
  (** Larger halting values, a larger depression constant and a larger epsilon give a larger probability. *)
  Lemma step_mono (s1 s2 : state N) (p1 p2 v1 v2 : bf) :
    eps_ok (epsilon s1) -> eps_ok (epsilon s2) ->
    dep_ok prec emax (depression_constant s1) -> dep_ok prec emax (depression_constant s2) ->
    B2R (epsilon s1 : pyfloat) <= B2R (epsilon s2 : pyfloat) ->
    B2R (depression_constant s1 : pyfloat) <= B2R (depression_constant s2 : pyfloat) ->
    funit p1 -> funit p2 -> B2R p1 <= B2R p2 -> Bleb v1 v2 = true ->
    funit (next_p s1 p1 v1 : bf) /\ funit (next_p s2 p2 v2 : bf) /\
    B2R (next_p s1 p1 v1 : bf) <= B2R (next_p s2 p2 v2 : bf).
  Proof.
    intros E1 E2 D1 D2 Le Ld U1 U2 Lp Lv.
    assert (Nv : is_nan v1 = false /\ is_nan v2 = false).
    { destruct v1 as [[|]|[|]| |[|]], v2 as [[|]|[|]| |[|]]; cbn in *; try discriminate; auto. }
    destruct Nv as [Nv1 Nv2].
    destruct (step_unit prec emax H2 s1 E1 D1 p1 v1 U1 Nv1) as [Un1 _].
    destruct (step_unit prec emax H2 s2 E2 D2 p2 v2 U2 Nv2) as [Un2 _].
    split; [exact Un1|]. split; [exact Un2|].
    pose proof (threshold_mono s1 s2 E1 E2 Le) as Lt.
    assert (Ls : B2R (scaled s1 v1 : bf) <= B2R (scaled s2 v2 : bf)).
    { rewrite (scaled_R s1 v1 D1 Nv1), (scaled_R s2 v2 D2 Nv2). apply rnd_le; [exact Hp|].
      pose proof (clip_mono v1 v2 Lv). destruct (clip_unit prec emax v1 Nv1) as [_ [A _]].
      apply Rmult_le_compat; auto; [apply D1|]. apply of_py_mono; auto; [apply D1|apply D2]. }
    assert (Lr : rnd (B2R p1 + B2R (scaled s1 v1 : bf)) <= rnd (B2R p2 + B2R (scaled s2 v2 : bf))).
    { apply rnd_le; [exact Hp|lra]. }
    destruct (halts_now s2 p2 v2) eqn:H.
    - rewrite (proj2 (halting_step prec emax H2 s2 p2 v2 U2 H)), one_R. apply Un1.
    - assert (H' : halts_now s1 p1 v1 = false).
      { destruct (halts_now s1 p1 v1) eqn:H'; [exfalso|reflexivity].
        apply (halts_R s1 p1 v1 E1 D1 U1 Nv1) in H'.
        assert (X : halts_now s2 p2 v2 = true) by (apply halts_R; auto; lra). congruence. }
      rewrite (proj1 (proj2 (running_step prec emax H2 s1 E1 D1 p1 v1 U1 Nv1 H'))).
      rewrite (proj1 (proj2 (running_step prec emax H2 s2 E2 D2 p2 v2 U2 Nv2 H))). exact Lr.
  Qed.
End Float3.
