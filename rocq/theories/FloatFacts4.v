(** * IEEE-754: runs of the scalar program and their rounding errors *)
From Coq Require Import ZArith Reals Lia Lra Psatz.
From Flocq Require Import Core BinarySingleNaN Sterbenz Relative Plus_error.
From Verif Require Import Base PyTree Tensor Num FloatNum States Controller Wf History ElementSpec ScalarSpec FloatSpec.
From Verif Require Import ScalarFacts FloatFacts FloatFacts2 FloatFacts3.

Lemma Rsum_app xs ys : Rsum (xs ++ ys) = (Rsum xs + Rsum ys)%R.
Proof. induction xs as [|x xs IH]; cbn [app Rsum]; [ring|rewrite IH; ring]. Qed.

Section Errors.
  Context (prec emax : Z) {Hp : Prec_gt_0 prec} {Hm : Prec_lt_emax prec emax} (H2 : (2 <= prec)%Z).
  Notation fexp := (SpecFloat.fexp prec emax).
  Notation rnd := (round radix2 fexp ZnearestE).
  Notation format := (generic_format radix2 fexp).
  Notation bf := (binary_float prec emax).
  Local Open Scope R_scope.
  Local Instance fexp_ok4 : Valid_exp fexp := FLT_exp_valid (SpecFloat.emin prec emax) prec.
  Local Instance fexp_mono4 : Monotone_exp fexp := FLT_exp_monotone (SpecFloat.emin prec emax) prec.

  (** unit roundoff and half the smallest positive number *)
  Notation e := (bpow radix2 (- prec)).
  Notation eta := (bpow radix2 (SpecFloat.emin prec emax - 1)).
  Lemma gap_e : half_gap prec = / 2 * e.
  Proof. unfold half_gap. replace (- prec - 1)%Z with (-1 + - prec)%Z by lia. rewrite bpow_plus. reflexivity. Qed.
  Lemma e_pos : 0 < e. Proof. apply bpow_gt_0. Qed.
  Lemma eta_pos : 0 < eta. Proof. apply bpow_gt_0. Qed.

  Lemma rnd_error_to_one x : 0 <= x -> rnd x <= 1 -> Rabs (rnd x - x) <= e.
  Proof.
    intros A B. pose proof e_pos. destruct (Rle_or_lt x 1) as [L|L].
    - eapply Rle_trans; [apply rnd_error_unit; auto|]. rewrite gap_e. lra.
    - assert (E1 : rnd x = 1) by (apply Rle_antisym; [exact B|apply rnd_ge_fmt; [exact Hp|now apply format_1|lra]]).
      assert (L2 : x < 2).
      { destruct (Rle_or_lt 2 x) as [G|G]; [exfalso|exact G].
        assert (2 <= rnd x); [|lra]. apply rnd_ge_fmt; [exact Hp| |exact G].
        change 2 with (bpow radix2 1). apply generic_format_bpow. unfold SpecFloat.fexp, SpecFloat.emin.
        pose proof (emax_3 prec emax H2). lia. }
      assert (Er : Rabs (rnd x - x) <= / 2 * ulp radix2 fexp x) by (apply error_le_half_ulp; apply fexp_ok4).
      rewrite ulp_neq_0 in Er by lra. rewrite (cexp_one prec emax H2) in Er by lra.
      replace (/ 2 * bpow radix2 (1 - prec)) with e in Er; [exact Er|].
      change (/ 2) with (bpow radix2 (-1)). rewrite <- bpow_plus. f_equal. lia.
  Qed.
  Lemma rnd_mult_error x : exists d n, Rabs d <= e /\ Rabs n <= eta /\ rnd x = x * (1 + d) + n.
  Proof.
    destruct (error_N_FLT radix2 (SpecFloat.emin prec emax) prec Hp (fun z => negb (Z.even z)) x) as (d & n & A & B & _ & C).
    exists d, n. split; [|split; [|exact C]].
    - eapply Rle_trans; [exact A|]. change (/ 2) with (bpow radix2 (-1)). rewrite <- bpow_plus.
      replace (-1 + (- prec + 1))%Z with (- prec)%Z by lia. lra.
    - eapply Rle_trans; [exact B|]. change (/ 2) with (bpow radix2 (-1)). rewrite <- bpow_plus.
      replace (-1 + SpecFloat.emin prec emax)%Z with (SpecFloat.emin prec emax - 1)%Z by lia. lra.
  Qed.
  Lemma rnd_plus_error x y : format x -> format y -> exists d, Rabs d <= e /\ rnd (x + y) = (x + y) * (1 + d).
  Proof.
    intros Fx Fy.
    destruct (FLT_plus_error_N_ex radix2 (SpecFloat.emin prec emax) prec (fun z => negb (Z.even z)) x y Fx Fy) as (d & A & C).
    exists d. split; [|exact C]. eapply Rle_trans; [exact A|]. unfold u_ro.
    assert (Q : / 2 * bpow radix2 (- prec + 1) = e).
    { change (/ 2) with (bpow radix2 (-1)). rewrite <- bpow_plus. f_equal. lia. }
    rewrite Q. pose proof e_pos. apply Rmult_le_reg_r with (1 + e); [lra|]. field_simplify; [|lra]. nra.
  Qed.

  (** Adding weighted updates one after the other. *)
  Definition share_step (a : bf) (x : bf * bf) : bf := f_add a (f_mul (fst x) (snd x)).
  Notation big := (magnitude_bound prec emax).
  Notation slack := (error_bound prec emax).
  Lemma pow_ge_1 n : 1 <= (1 + e) ^ n.
  Proof. apply pow_R1_Rle. pose proof e_pos. lra. Qed.
  Lemma Rsum_abs_nonneg {A} (f : A -> R) xs : 0 <= Rsum (map (fun x => Rabs (f x)) xs).
  Proof. induction xs as [|x xs IH]; cbn [map Rsum]; [lra|]. pose proof (Rabs_pos (f x)). lra. Qed.

  Lemma one_share (a w u : bf) : is_finite a = true -> is_finite w = true -> is_finite u = true ->
    (1 + e) * (Rabs (B2R a) + (1 + e) * Rabs (B2R w * B2R u) + eta) < bpow radix2 emax ->
    is_finite (share_step a (w, u)) = true /\
    Rabs (B2R (share_step a (w, u))) <= (1 + e) * (Rabs (B2R a) + (1 + e) * Rabs (B2R w * B2R u) + eta) /\
    Rabs (B2R (share_step a (w, u)) - (B2R a + B2R w * B2R u)) <=
      e * Rabs (B2R a) + ((1 + e) * (1 + e) - 1) * Rabs (B2R w * B2R u) + (1 + e) * eta.
  Proof.
    intros Fa Fw Fu L. unfold share_step. cbn [fst snd]. pose proof e_pos as Pe. pose proof eta_pos as Pn.
    set (W := B2R w * B2R u) in *. pose proof (Rabs_pos (B2R a)) as Pa. pose proof (Rabs_pos W) as PW.
    destruct (rnd_mult_error W) as (d & n & Bd & Bn & ER).
    assert (Bm : Rabs (rnd W) <= (1 + e) * Rabs W + eta).
    { rewrite ER. eapply Rle_trans; [apply Rabs_triang|]. rewrite Rabs_mult.
      assert (Rabs (1 + d) <= 1 + e) by (eapply Rle_trans; [apply Rabs_triang|]; rewrite Rabs_R1; lra). nra. }
    pose proof (Bmult_correct prec emax Hp Hm mode_NE w u) as X. cbn [round_mode] in X. fold W in X.
    rewrite Rlt_bool_true in X by nra. destruct X as (X1 & X2 & _). rewrite Fw, Fu in X2. cbn in X2.
    fold (f_mul w u) in X1, X2. set (m := f_mul w u) in *.
    destruct (rnd_plus_error (B2R a) (B2R m) (fmt prec emax a) (fmt prec emax m)) as (d' & Bd' & EP).
    assert (Bs : Rabs (rnd (B2R a + B2R m)) <= (1 + e) * (Rabs (B2R a) + (1 + e) * Rabs W + eta)).
    { rewrite EP, Rabs_mult, Rmult_comm. apply Rmult_le_compat; try apply Rabs_pos.
      - eapply Rle_trans; [apply Rabs_triang|]. rewrite Rabs_R1. lra.
      - eapply Rle_trans; [apply Rabs_triang|]. rewrite X1. lra. }
    destruct (add_finite prec emax a m Fa X2) as [G1 G2]; [lra|].
    split; [exact G1|]. rewrite G2. split; [exact Bs|].
    rewrite EP, X1, ER.
    replace ((B2R a + (W * (1 + d) + n)) * (1 + d') - (B2R a + W))
      with (B2R a * d' + (W * ((1 + d) * (1 + d') - 1) + n * (1 + d'))) by ring.
    assert (T1 : Rabs ((1 + d) * (1 + d') - 1) <= (1 + e) * (1 + e) - 1).
    { replace ((1 + d) * (1 + d') - 1) with (d + d' + d * d') by ring.
      eapply Rle_trans; [apply Rabs_triang|]. rewrite Rabs_mult.
      assert (Rabs d * Rabs d' <= e * e) by (apply Rmult_le_compat; auto using Rabs_pos).
      pose proof (Rabs_triang d d'). lra. }
    assert (T2 : Rabs (1 + d') <= 1 + e) by (eapply Rle_trans; [apply Rabs_triang|]; rewrite Rabs_R1; lra).
    eapply Rle_trans; [apply Rabs_triang|]. rewrite Rabs_mult.
    eapply Rle_trans; [apply Rplus_le_compat_l; apply Rabs_triang|]. rewrite !Rabs_mult.
    assert (Rabs (B2R a) * Rabs d' <= e * Rabs (B2R a)) by (rewrite Rmult_comm; apply Rmult_le_compat_r; auto).
    assert (Rabs W * Rabs ((1 + d) * (1 + d') - 1) <= ((1 + e) * (1 + e) - 1) * Rabs W)
      by (rewrite Rmult_comm; apply Rmult_le_compat_r; auto).
    assert (Rabs n * Rabs (1 + d') <= (1 + e) * eta)
      by (rewrite (Rmult_comm (1 + e)); apply Rmult_le_compat; auto using Rabs_pos).
    lra.
  Qed.

  Lemma shares_error (xs : list (bf * bf)) : forall a : bf,
    is_finite a = true -> Forall (fun x => is_finite (fst x) = true /\ is_finite (snd x) = true) xs ->
    let tot := Rsum (map (fun x => Rabs (exact_share x)) xs) in
    big (length xs) (B2R a) tot < bpow radix2 emax ->
    is_finite (fold_left share_step xs a) = true /\
    Rabs (B2R (fold_left share_step xs a) - (B2R a + Rsum (map exact_share xs))) <= slack (length xs) (B2R a) tot.
  Proof.
    induction xs as [|[w u] xs IH]; intros a Fa F tot L.
    - split; [exact Fa|]. unfold error_bound, tot. cbn [map Rsum length fold_left INR pow].
      rewrite Rplus_0_r, Rminus_diag_eq, Rabs_R0 by reflexivity. lra.
    - inversion F as [|? ? [Fw Fu] F']; subst. cbn [fst snd] in Fw, Fu.
      unfold tot in *. cbn [map Rsum length fold_left] in *. clear tot F.
      set (n := length xs) in *. set (T := Rsum (map (fun x => Rabs (exact_share x)) xs)) in *.
      assert (PT : 0 <= T) by apply Rsum_abs_nonneg.
      change (exact_share (w, u)) with (B2R w * B2R u) in *.
      set (W := B2R w * B2R u) in *. set (A := Rabs (B2R a)) in *.
      assert (PA : 0 <= A) by apply Rabs_pos. pose proof (Rabs_pos W) as PW.
      unfold magnitude_bound, error_bound in *. rewrite <- !tech_pow_Rmult, S_INR in *. fold A in L.
      pose proof (pow_ge_1 n) as P1. set (P := (1 + e) ^ n) in *. set (q := 1 + e) in *.
      pose proof e_pos as Pe. assert (Q1 : 1 <= q) by (unfold q; lra). assert (Ee : e = q - 1) by (unfold q; ring). pose proof eta_pos as Pn. pose proof (pos_INR n) as Pi.
      set (h := eta) in *. set (k := INR n) in *.
      assert (PQ : 0 <= P * q) by nra. assert (PQ1 : 1 <= P * q) by nra. assert (PQQ : P * q <= P * q * q) by nra.
      assert (Pk : 0 <= k * h) by nra.
      assert (Pq : 0 <= q) by lra. assert (P0 : 0 <= P) by lra.
      assert (Grow : forall x, 0 <= x -> x <= P * x).
      { intros x Hx. rewrite <- (Rmult_1_l x) at 1. now apply Rmult_le_compat_r. }
      assert (Growq : forall x, 0 <= x -> x <= x * q).
      { intros x Hx. rewrite <- (Rmult_1_r x) at 1. now apply Rmult_le_compat_l. }
      assert (X1 := Grow (q * A) (Rmult_le_pos _ _ Pq PA)).
      assert (X2 := Grow (q * (q * Rabs W)) (Rmult_le_pos _ _ Pq (Rmult_le_pos _ _ Pq PW))).
      assert (X3 := Grow (q * h) (Rmult_le_pos _ _ Pq (Rlt_le _ _ Pn))).
      assert (X4 : 0 <= P * q * q * T) by (apply Rmult_le_pos; [apply Rmult_le_pos|]; assumption).
      assert (X5' : 0 <= k * h * P) by (apply Rmult_le_pos; assumption).
      assert (X6 := Growq (k * h * P) X5').
      assert (X7 := Growq (P * q * T) (Rmult_le_pos _ _ PQ PT)).
      assert (X5 : 0 <= k * h * P * q) by lra.
      assert (L1 : q * (A + q * Rabs W + h) < bpow radix2 emax) by lra.
      destruct (one_share a w u Fa Fw Fu L1) as (F1 & B1 & E1). fold W A q h in B1, E1.
      set (a1 := share_step a (w, u)) in *. set (A1 := Rabs (B2R a1)) in *.
      assert (Y : P * A1 <= P * (q * (A + q * Rabs W + h))) by (apply Rmult_le_compat_l; lra).
      destruct (IH a1 F1 F') as [G1 G2].
      { fold A1. lra. }
      split; [exact G1|]. fold A1 in G2.
      set (r := B2R (fold_left share_step xs a1)) in *. set (Sx := Rsum (map exact_share xs)) in *.
      replace (r - (B2R a + (W + Sx))) with ((r - (B2R a1 + Sx)) + (B2R a1 - (B2R a + W))) by ring.
      eapply Rle_trans; [apply Rabs_triang|].
      assert (Y2 : (P - 1) * A1 <= (P - 1) * (q * (A + q * Rabs W + h))) by (apply Rmult_le_compat_l; lra).
      rewrite Ee in E1. fold A. lra.
  Qed.
End Errors.

(** ** Runs of the scalar program *)
Section Runs.
  Context (prec emax : Z) {Hp : Prec_gt_0 prec} {Hm : Prec_lt_emax prec emax} (H2 : (2 <= prec)%Z).
  Notation N := (FloatNum prec emax).
  Notation bf := (binary_float prec emax).
  Notation fexp := (SpecFloat.fexp prec emax).
  Notation rnd := (round radix2 fexp ZnearestE).
  Notation e := (bpow radix2 (- prec)).
  Local Open Scope R_scope.
  Context (s : state N) (He : eps_ok (epsilon s)) (Hd : dep_ok prec emax (depression_constant s)).
  Notation thr := (threshold s).
  Notation dep := (v_of_scl N (depression_constant s)).
  Notation T := (B2R (threshold s : bf)).
  Notation P x := (B2R (cumulative x : bf)).
  Notation after x vs := (stats_run thr dep x (map Some vs)).
  Notation okv v := (is_nan (v : bf) = false).

  Record sane (x : stats N) : Prop := {
    sn_unit : funit (cumulative x : bf);
    sn_over : is_over thr x = true -> cumulative x = (f_one : bf) }.

  Lemma sane0 : sane stats0.
  Proof.
    split; [apply (zero_unit prec emax)|]. intros H. exfalso.
    assert (X : halted_at s (f_zero : bf) = true) by exact H.
    apply (halted_R prec emax H2 s f_zero He (zero_unit prec emax)) in X.
    pose proof (threshold_unit prec emax H2 s He) as [_ [A _]]. change (B2R (f_zero : bf)) with 0 in X. lra.
  Qed.
  Lemma sane_step x (v : bf) : sane x -> okv v -> sane (stats_step thr dep x v).
  Proof.
    intros [U O] Nn. split.
    - exact (proj1 (step_unit prec emax H2 s He Hd (cumulative x) v U Nn)).
    - intros H. change (is_over thr (stats_step thr dep x v)) with (halted_at s (next_p s (cumulative x) v)) in H.
      change (cumulative (stats_step thr dep x v)) with (next_p s (cumulative x) v).
      destruct (halts_now s (cumulative x) v) eqn:W; [exact (proj2 (halting_step prec emax H2 s _ v U W))|exfalso].
      destruct (running_step prec emax H2 s He Hd (cumulative x) v U Nn W) as (F & _ & _ & L).
      pose proof (proj1 (step_unit prec emax H2 s He Hd (cumulative x) v U Nn)) as U'.
      apply (halted_R prec emax H2 s _ He U') in H. lra.
  Qed.
  Lemma sane_run vs : forall x, sane x -> Forall (fun v => okv v) vs -> sane (after x vs).
  Proof.
    induction vs as [|v vs IH]; intros x Sx F; [exact Sx|]. inversion F; subst. cbn [map stats_run fold_left stats_event].
    apply IH; auto. now apply sane_step.
  Qed.
  Lemma over_step x (v : bf) : sane x -> okv v -> is_over thr x = true -> is_over thr (stats_step thr dep x v) = true.
  Proof.
    intros [U O] Nn H. exact (proj2 (proj2 (step_stays prec emax H2 s He Hd (cumulative x) v U Nn H))).
  Qed.
  Lemma over_run vs : forall x, sane x -> Forall (fun v => okv v) vs -> is_over thr x = true -> is_over thr (after x vs) = true.
  Proof.
    induction vs as [|v vs IH]; intros x Sx F H; [exact H|]. inversion F; subst. cbn [map stats_run fold_left stats_event].
    apply IH; auto using sane_step, over_step.
  Qed.

  (** The weights add up to the probability, up to one rounding error per step. *)
  Lemma weights_sum vs : forall x, sane x -> Forall (fun v => okv v) vs ->
    let ws := weights thr dep x vs in
    Forall (fun w => fnonneg (w : bf)) ws /\
    Rabs (P x + Rsum (map (fun w : val N => B2R (w : bf)) ws) - P (after x vs)) <= INR (length ws) * e.
  Proof.
    induction vs as [|v vs IH]; intros x Sx F.
    - cbn zeta. cbn [weights map Rsum length INR stats_run fold_left]. split; [constructor|]. rewrite Rplus_0_r, Rminus_diag_eq, Rabs_R0 by reflexivity. lra.
    - inversion F as [|? ? Nn F']; subst. pose proof (sane_step x v Sx Nn) as Sx1. pose proof Sx as [U O].
      destruct (IH _ Sx1 F') as [I1 I2]. cbn zeta. cbn [weights map stats_run fold_left stats_event] in *.
      change (fold_left (stats_event thr dep) (map Some vs) (stats_step thr dep x v)) with (after (stats_step thr dep x v) vs) in *.
      set (x1 := stats_step thr dep x v) in *. set (R1 := P (after x1 vs)) in *.
      destruct (is_over thr x) eqn:Ho.
      + cbn [app]. split; [exact I1|].
        assert (E1 : P x1 = P x).
        { rewrite (O eq_refl). change (P x1) with (B2R (next_p s (cumulative x) v : bf)).
          now rewrite (proj1 (proj2 (step_stays prec emax H2 s He Hd (cumulative x) v U Nn Ho))). }
        rewrite <- E1. exact I2.
      + cbn [app map Rsum length]. rewrite S_INR. split.
        * constructor; [|exact I1]. exact (weight_unit prec emax H2 s Hd (cumulative x) v U Nn).
        * change (used thr dep x v) with (weight s (cumulative x) v).
          assert (E1 : Rabs (P x + B2R (weight s (cumulative x) v : bf) - P x1) <= e).
          { change (P x1) with (B2R (next_p s (cumulative x) v : bf)). pose proof (e_pos prec).
            destruct (halts_now s (cumulative x) v) eqn:W.
            - destruct (halting_step prec emax H2 s _ v U W) as [-> ->]. rewrite one_R.
              rewrite (proj2 (sub_one prec emax H2 _ U)).
              replace (P x + rnd (1 - P x) - 1) with (rnd (1 - P x) - (1 - P x)) by ring.
              eapply Rle_trans; [apply rnd_error_unit; auto; destruct U; lra|]. rewrite gap_e. lra.
            - destruct (running_step prec emax H2 s He Hd _ v U Nn W) as (_ & E & L1 & L2).
              assert (Ew : weight s (cumulative x) v = scaled s v) by (unfold weight; now rewrite W). rewrite Ew.
              destruct (threshold_unit prec emax H2 s He) as [_ [_ T1]].
              destruct (scaled_nonneg prec emax s Hd v Nn) as [_ Sn]. destruct U as [_ [U0 _]].
              rewrite Rabs_minus_sym, E. apply rnd_error_to_one; auto; lra. }
          set (w := B2R (weight s (cumulative x) v : bf)) in *. set (S1 := Rsum (map (fun w0 : val N => B2R (w0 : bf)) (weights thr dep x1 vs))) in *.
          replace (P x + (w + S1) - R1) with ((P x + w - P x1) + (P x1 + S1 - R1)) by ring.
          eapply Rle_trans; [apply Rabs_triang|]. lra.
  Qed.

  (** An accumulator entry adds its shares one after the other. *)
  Lemma value_run_shares dv es : forall x (a : bf),
    value_run thr dep dv x a (map Some es) = fold_left (share_step prec emax) (shares thr dep x es) a.
  Proof.
    induction es as [|[v u] es IH]; intros x a; [reflexivity|]. cbn [map value_run shares]. rewrite IH.
    rewrite fold_left_app. unfold value_step. destruct (is_over thr x); reflexivity.
  Qed.
  Lemma shares_weights es : forall x, map fst (shares thr dep x es) = weights thr dep x (map fst es).
  Proof.
    induction es as [|[v u] es IH]; intros x; [reflexivity|]. cbn [map shares weights fst]. rewrite map_app, IH.
    destruct (is_over thr x); reflexivity.
  Qed.
  Lemma shares_incl es : forall x y, In y (shares thr dep x es) -> In (snd y) (map snd es).
  Proof.
    induction es as [|[v u] es IH]; intros x y; [easy|]. cbn [map shares snd]. rewrite in_app_iff.
    intros [H|H]; [left|right; eauto]. destruct (is_over thr x); [easy|]. destruct H as [<-|[]]. reflexivity.
  Qed.

  (** ** Halting decisions *)
  Notation D := (B2R (f_of_py (depression_constant s : pyfloat) : bf)).
  Notation ideal := (ideal_value prec emax (depression_constant s : pyfloat)).
  Context (Hd1 : D <= 1).
  Lemma ideal_unit v : 0 <= ideal v <= 1.
  Proof.
    unfold ideal_value. destruct Hd as [_ D0].
    assert (0 <= Rmin 1 (Rmax 0 (B2R v)) <= 1).
    { split; [|apply Rmin_l]. apply Rmin_glb; [lra|]. apply Rmax_l. }
    split; nra.
  Qed.
  Lemma scaled_ideal (v : bf) : is_finite v = true -> Rabs (B2R (scaled s v : bf) - ideal v) <= half_gap prec.
  Proof.
    intros F. rewrite (scaled_R prec emax s v Hd (finite_not_nan prec emax v F)).
    rewrite (clip_R prec emax v F). apply rnd_error_unit; auto. apply ideal_unit.
  Qed.
  Lemma finite_ok vs : Forall (fun v => is_finite (v : bf) = true) vs -> Forall (fun v => okv v) vs.
  Proof. apply Forall_impl. intros v. apply finite_not_nan. Qed.
  Lemma ideals_nonneg vs : 0 <= Rsum (map ideal vs).
  Proof. induction vs as [|v vs IH]; cbn [map Rsum]; [lra|]. pose proof (ideal_unit v). lra. Qed.

  Lemma drift vs : T < 1 -> forall x, sane x -> Forall (fun v => is_finite (v : bf) = true) vs -> is_over thr (after x vs) = false ->
    Rabs (P (after x vs) - (P x + Rsum (map ideal vs))) <= INR (length vs) * e.
  Proof.
    intros Ht. induction vs as [|v vs IH]; intros x Sx F Ho.
    - cbn [map Rsum length INR stats_run fold_left]. rewrite Rplus_0_r, Rminus_diag_eq, Rabs_R0 by reflexivity. lra.
    - inversion F as [|? ? Fv F']; subst. pose proof (finite_not_nan prec emax v Fv) as Nn.
      pose proof (sane_step x v Sx Nn) as Sx1. cbn [map stats_run fold_left stats_event] in *.
      change (fold_left (stats_event thr dep) (map Some vs) (stats_step thr dep x v)) with (after (stats_step thr dep x v) vs) in *.
      set (x1 := stats_step thr dep x v) in *.
      assert (Ho1 : is_over thr x1 = false).
      { destruct (is_over thr x1) eqn:E; [|reflexivity]. rewrite (over_run vs x1 Sx1 (finite_ok vs F') E) in Ho. discriminate. }
      pose proof (IH x1 Sx1 F' Ho) as I. pose proof Sx as [U O].
      assert (W : halts_now s (cumulative x) v = false).
      { destruct (halts_now s (cumulative x) v) eqn:W; [exfalso|reflexivity].
        assert (Hx : halted_at s (next_p s (cumulative x) v) = false) by exact Ho1.
        rewrite (proj2 (halting_step prec emax H2 s _ v U W)) in Hx.
        assert (Y : halted_at s (f_one : bf) = true); [|congruence].
        apply (halted_R prec emax H2 s _ He (one_unit prec emax)). rewrite one_R. exact Ht. }
      destruct (running_step prec emax H2 s He Hd _ v U Nn W) as (_ & E & L1 & L2).
      assert (Step : Rabs (P x1 - (P x + ideal v)) <= e).
      { change (P x1) with (B2R (next_p s (cumulative x) v : bf)).
        pose proof (scaled_ideal v Fv) as Sc. destruct (scaled_nonneg prec emax s Hd v Nn) as [_ Sn]. destruct U as [_ [U0 _]].
        assert (Lt : P x + B2R (scaled s v : bf) <= 1).
        { destruct (Rle_or_lt (P x + B2R (scaled s v : bf)) 1) as [L|L]; [exact L|exfalso].
          assert (1 <= rnd (P x + B2R (scaled s v : bf))); [|lra]. apply rnd_ge_fmt; [exact Hp|now apply format_1|lra]. }
        pose proof (rnd_error_unit prec emax H2 (P x + B2R (scaled s v : bf)) ltac:(lra)) as Er.
        rewrite E. rewrite gap_e in *.
        replace (rnd (P x + B2R (scaled s v : bf)) - (P x + ideal v)) with
          ((rnd (P x + B2R (scaled s v : bf)) - (P x + B2R (scaled s v : bf))) + (B2R (scaled s v : bf) - ideal v)) by ring.
        eapply Rle_trans; [apply Rabs_triang|]. lra. }
      cbn [length Rsum]. rewrite S_INR.
      replace (P (after x1 vs) - (P x + (ideal v + Rsum (map ideal vs)))) with
        ((P (after x1 vs) - (P x1 + Rsum (map ideal vs))) + (P x1 - (P x + ideal v))) by ring.
      eapply Rle_trans; [apply Rabs_triang|]. lra.
  Qed.
  Lemma stays_below vs : forall x, sane x -> Forall (fun v => is_finite (v : bf) = true) vs ->
    P x + Rsum (map ideal vs) + INR (length vs) * e <= T -> is_over thr (after x vs) = false.
  Proof.
    induction vs as [|v vs IH]; intros x Sx F L.
    - cbn [map Rsum length INR] in L. cbn [map stats_run fold_left]. destruct (is_over thr x) eqn:E; [exfalso|reflexivity].
      assert (X : halted_at s (cumulative x) = true) by exact E.
      apply (halted_R prec emax H2 s _ He (sn_unit _ Sx)) in X. lra.
    - inversion F as [|? ? Fv F']; subst. pose proof (finite_not_nan prec emax v Fv) as Nn.
      pose proof (sane_step x v Sx Nn) as Sx1. cbn [map stats_run fold_left stats_event] in *.
      change (fold_left (stats_event thr dep) (map Some vs) (stats_step thr dep x v)) with (after (stats_step thr dep x v) vs) in *.
      cbn [length Rsum] in L. rewrite S_INR in L. pose proof Sx as [U O]. pose proof (e_pos prec) as Pe.
      pose proof (ideals_nonneg vs) as Ps. pose proof (pos_INR (length vs)) as Pn.
      assert (0 <= INR (length vs) * e) by (apply Rmult_le_pos; lra).
      pose proof (scaled_ideal v Fv) as Sc. apply Rabs_le_inv in Sc. rewrite gap_e in Sc.
      destruct (scaled_nonneg prec emax s Hd v Nn) as [_ Sn]. destruct (threshold_unit prec emax H2 s He) as [_ [_ T1]].
      assert (Le : P x + B2R (scaled s v : bf) <= T) by lra.
      assert (Lr : rnd (P x + B2R (scaled s v : bf)) <= T) by (apply rnd_le_fmt; [exact Hp|apply fmt|exact Le]).
      assert (W : halts_now s (cumulative x) v = false).
      { destruct (halts_now s (cumulative x) v) eqn:W; [exfalso|reflexivity].
        apply (halts_R prec emax H2 s _ v He Hd U Nn) in W. lra. }
      destruct (running_step prec emax H2 s He Hd _ v U Nn W) as (_ & E & _).
      apply IH; auto. change (P (stats_step thr dep x v)) with (B2R (next_p s (cumulative x) v : bf)). rewrite E.
      destruct U as [_ [U0 _]].
      pose proof (rnd_error_unit prec emax H2 (P x + B2R (scaled s v : bf)) ltac:(lra)) as Er.
      apply Rabs_le_inv in Er. rewrite gap_e in Er. lra.
  Qed.
  Lemma threshold_near : (prec <= 53)%Z -> Rabs (T - (1 - B2R (epsilon s : pyfloat))) <= e.
  Proof.
    intros H53. rewrite (threshold_R prec emax H2 s He). destruct He as [_ B]. set (x := 1 - B2R (epsilon s : pyfloat)).
    assert (U : 0 <= x <= 1) by (unfold x; lra).
    set (y := round radix2 (SpecFloat.fexp 53 1024) ZnearestE x).
    assert (Uy : 0 <= y <= 1) by (apply (rnd_unit 53 1024); [lia|exact U]).
    pose proof (rnd_error_unit 53 1024 ltac:(lia) x U) as E1. fold y in E1.
    pose proof (rnd_error_unit prec emax H2 y Uy) as E2.
    assert (G : half_gap 53 <= half_gap prec) by (unfold half_gap; apply bpow_le; lia).
    replace (rnd y - x) with ((rnd y - y) + (y - x)) by ring.
    eapply Rle_trans; [apply Rabs_triang|]. rewrite (gap_e prec) in E2, G. lra.
  Qed.
End Runs.
