(** * Multiplication by one and zero, clamping and NaN in IEEE arithmetic, for PropsFloat2.v. *)
From Coq Require Import ZArith Reals Lia Lra Psatz.
From Flocq Require Import Core BinarySingleNaN.
From Verif Require Import Base PyTree Tensor Num FloatNum FloatSpec States Viewer.
From Verif Require Import FloatFacts FloatFacts2 MaskFacts.
Close Scope R_scope. Close Scope Z_scope. Open Scope nat_scope.

Section Facts.
  Context (prec emax : Z) {Hp : Prec_gt_0 prec} {Hm : Prec_lt_emax prec emax}.
  Notation N := (FloatNum prec emax).
  Notation bf := (binary_float prec emax).
  Lemma cleared_r (v : bf) : f_mul v f_zero = cleared v.
  Proof. destruct v as [[|]|[|]| |[|] m e B]; reflexivity. Qed.
  Lemma cleared_l (v : bf) : f_mul f_zero v = cleared v.
  Proof. destruct v as [[|]|[|]| |[|] m e B]; reflexivity. Qed.
  Lemma cleared_twice (v : bf) : cleared (cleared v) = cleared v.
  Proof. destruct v as [[|]|[|]| |[|] m e B]; reflexivity. Qed.
  Lemma float_masks_multiply : masks_multiply (N := N).
  Proof.
    intros b1 b2 v. cbn [v_mul FloatNum]. destruct b1, b2; cbn [v_of_bool andb v_one v_zero FloatNum];
      rewrite ?(mul_one_l prec emax); try reflexivity.
    change (f_mul f_zero (f_mul f_zero (v : bf)) = f_mul f_zero (v : bf)). rewrite !cleared_l. apply cleared_twice.
  Qed.

  (** ** Clamping *)
  Lemma clip_at_least_one (v : bf) : Bleb f_one v = true -> f_min f_one (f_max f_zero v) = f_one.
  Proof.
    intros L. destruct (is_finite v) eqn:F.
    - rewrite Bleb_correct in L; [|apply one_finite|exact F]. rewrite one_R in L.
      assert (1 <= B2R v)%R as L' by (revert L; case Rle_bool_spec; [auto|discriminate]).
      assert (Nn : is_nan v = false) by now apply finite_not_nan.
      assert (X : f_max f_zero v = v).
      { unfold f_max. cbn [is_nan f_zero]. rewrite Nn. destruct (Bltb f_zero v) eqn:B; [reflexivity|].
        apply (ltb_R_false prec emax f_zero v) in B; [|reflexivity|exact F]. cbn in B. exfalso. lra. }
      rewrite X. unfold f_min. rewrite (finite_not_nan prec emax _ (one_finite prec emax)), Nn.
      destruct (Bltb v f_one) eqn:B; [|reflexivity].
      apply (ltb_R prec emax v f_one) in B; [|exact F|apply one_finite]. rewrite one_R in B. exfalso. lra.
    - assert (O := one_finite prec emax). assert (OR := one_R prec emax). revert L O OR.
      unfold f_min, f_max. generalize (f_one : bf). intros o L O OR. destruct v as [?|[|]| |? ? ? ?]; try discriminate.
      + destruct o as [[|]|[|]| |[|] ? ? ?]; discriminate.
      + cbn [is_nan f_zero]. change (Bltb (f_zero : bf) (B754_infinity false)) with true. cbv iota.
        destruct o as [[|]|[|]| |[|] ? ? ?]; try discriminate; reflexivity.
      + destruct o as [[|]|[|]| |[|] ? ? ?]; discriminate.
  Qed.
  Lemma clip_at_most_zero (v : bf) : Bleb v f_zero = true -> f_min f_one (f_max f_zero v) = f_zero.
  Proof.
    intros L. assert (X : f_max f_zero v = f_zero).
    { unfold f_max. cbn [is_nan f_zero]. destruct v as [[|]|[|]| |[|] ? ? ?]; try discriminate; reflexivity. }
    rewrite X. unfold f_min. cbn [is_nan f_zero]. rewrite (finite_not_nan prec emax _ (one_finite prec emax)).
    assert (B : Bltb f_zero (f_one : bf) = true).
    { apply ltb_R; [reflexivity|apply one_finite|]. rewrite one_R. cbn. lra. }
    now rewrite B.
  Qed.
  Lemma clip_twice (v : bf) : let c (x : bf) := f_min f_one (f_max f_zero x) in c (c v) = c v.
  Proof.
    cbv zeta. destruct (is_nan v) eqn:Nn.
    - destruct v; try discriminate. assert (E : f_min f_one (f_max f_zero B754_nan) = (B754_nan : bf)).
      { unfold f_min, f_max. cbn [is_nan f_zero]. rewrite (finite_not_nan prec emax _ (one_finite prec emax)). reflexivity. }
      rewrite E. exact E.
    - destruct (clip_unit prec emax v Nn) as [F [A B]]. set (w := f_min f_one (f_max f_zero v)) in *.
      destruct (Req_dec (B2R w) 1) as [E1|E1].
      { rewrite (eq_one prec emax w F E1). apply clip_at_least_one. rewrite Bleb_correct; try apply one_finite.
        apply Rle_bool_true. lra. }
      destruct (Bltb f_zero v) eqn:Lv.
      + assert (M : f_max f_zero v = v) by (unfold f_max; cbn [is_nan f_zero]; rewrite Nn, Lv; reflexivity).
        assert (Hw : w = v \/ w = f_one).
        { unfold w. rewrite M. unfold f_min. rewrite (finite_not_nan prec emax _ (one_finite prec emax)), Nn.
          destruct (Bltb v f_one); auto. }
        destruct Hw as [Hw|Hw]; [|exfalso; apply E1; rewrite Hw; apply one_R].
        rewrite Hw. fold w. exact Hw.
      + assert (M : f_max f_zero v = f_zero) by (unfold f_max; cbn [is_nan f_zero]; rewrite Nn, Lv; reflexivity).
        assert (Hz : w = f_zero).
        { unfold w. rewrite M. exact (clip_at_most_zero f_zero eq_refl). }
        rewrite Hz. apply clip_at_most_zero. reflexivity.
  Qed.

  (** ** Adding zero *)
  Lemma add_zero_r (x : bf) sg : same_number (f_add x (B754_zero sg)) x.
  Proof.
    destruct x as [s|s| |s m e B]; cbn; try (left; reflexivity).
    - right. destruct s, sg; cbn; eauto.
  Qed.
  Lemma add_zero_l (x : bf) sg : same_number (f_add (B754_zero sg) x) x.
  Proof.
    destruct x as [s|s| |s m e B]; cbn; try (left; reflexivity).
    - right. destruct s, sg; cbn; eauto.
  Qed.
  Lemma same_number_ltb (t x y : bf) : same_number x y -> Bltb t x = Bltb t y.
  Proof. intros [->|(sx & sy & -> & ->)]; [reflexivity|]. destruct t as [[|]|[|]| |[|] ? ? ?]; reflexivity. Qed.
  Lemma ltb_nan (t : bf) : Bltb t B754_nan = false.
  Proof. destruct t as [[|]|[|]| |[|] ? ? ?]; reflexivity. Qed.
  Lemma add_nan_l (x : bf) : f_add B754_nan x = B754_nan.
  Proof. destruct x; reflexivity. Qed.
  Lemma add_nan_r (x : bf) : f_add x B754_nan = B754_nan.
  Proof. destruct x; reflexivity. Qed.
  Lemma mul_nan_r (x : bf) : f_mul x B754_nan = B754_nan.
  Proof. destruct x; reflexivity. Qed.
  Lemma mul_zeros (z u : bf) : (exists sg, z = B754_zero sg) -> is_finite u = true -> exists sg, f_mul z u = B754_zero sg.
  Proof. intros [sg ->] F. destruct u; cbn in *; try discriminate; eauto. Qed.
  Lemma clip_finite (v : bf) : is_nan v = false -> is_finite (f_min f_one (f_max f_zero v)) = true.
  Proof. intros Nn. apply (clip_unit prec emax v Nn). Qed.
End Facts.

