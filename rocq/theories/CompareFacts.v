(** * Facts about comparing numbers, for PropsCompare.v. *)
From Coq Require Import ZArith Reals Lia Lra Psatz.
From Coq Require Import QArith Qcanon.
From Flocq Require Import Core BinarySingleNaN.
From Verif Require Import Base PyTree Tensor Num FloatNum FloatSpec Utils Wf CompareSpec.
From Verif Require Import BaseFacts QcFacts FloatFacts FloatFacts2 FloatFacts4 PropsUtils.
Close Scope Qc_scope. Close Scope Q_scope. Close Scope R_scope. Close Scope Z_scope. Open Scope list_scope. Open Scope nat_scope.

Lemma close_near (x y : Qc) : Qcclose x y = true <-> near x y.
Proof.
  unfold Qcclose, near. rewrite Qcleb_le. unfold Qcabs'. unfold Qcltb at 2. destruct (Qclt_le_dec y 0) as [Ly|Ly];
  (unfold Qcltb; destruct (Qclt_le_dec (x - y) 0) as [L|L]); (split; [intros H; split|intros [H1 H2]]);
  revert L Ly; try revert H; try revert H1 H2; qc.
Qed.
Lemma related_iff {N} (u : bool) (rel : val N -> val N -> Prop) (l1 l2 : eleaf N) :
  (forall x y, (if u then v_close N x y else v_eqb N x y) = true <-> rel x y) ->
  leaf_match u l1 l2 <-> entries_related rel l1 l2.
Proof.
  intros H. destruct l1 as [n1 a1|t1 c1], l2 as [n2 a2|t2 c2]; cbn; try tauto.
  split; intros [E G]; (split; [exact E|]); intros j x y Hx Hy; apply H; eauto.
Qed.
Lemma Forall2_iff {A B} (P Q : A -> B -> Prop) l1 l2 : (forall x y, P x y <-> Q x y) -> Forall2 P l1 l2 <-> Forall2 Q l1 l2.
Proof. intros H. split; induction 1; constructor; auto; now apply H. Qed.

Section Formats.
  Context (prec emax : Z) {Hp : Prec_gt_0 prec} {Hm : Prec_lt_emax prec emax}.
  Notation bf := (binary_float prec emax).
  Local Open Scope R_scope.
  Notation atol := (atol prec emax).
  Notation rtol := (rtol prec emax).
  Notation float_decision := (float_decision prec emax).
  Section Facts.
    Context (H2 : (2 <= prec)%Z).
    Notation fexp := (SpecFloat.fexp prec emax).
    Notation rnd := (round radix2 fexp ZnearestE).
    Notation u := (bpow radix2 (- prec)).
    Notation h := (bpow radix2 (SpecFloat.emin prec emax - 1)).
    Lemma u_small : 0 < u <= / 4.
    Proof. split; [apply bpow_gt_0|]. change (/ 4) with (bpow radix2 (-2)). apply bpow_le. lia. Qed.
    Lemma py_half (a b : Z) : is_finite (py_div a b) && Bleb (B754_zero false) (py_div a b) && Bleb (py_div a b) (py_div 1 2) = true ->
      funit (f_of_py (py_div a b) : bf) /\ B2R (f_of_py (py_div a b) : bf) <= / 2.
    Proof.
      intros L. apply andb_prop in L as [L L2]. apply andb_prop in L as [F L1].
      assert (A : 0 <= B2R (py_div a b)).
      { rewrite Bleb_correct in L1 by (auto; reflexivity). revert L1. case Rle_bool_spec; [auto|discriminate]. }
      assert (Eh : B2R (py_div 1 2) = / 2).
      { assert (E : B2SF (py_div 1 2) = SpecFloat.S754_finite false 4503599627370496 (-53)) by (vm_compute; reflexivity).
        rewrite <- SF2R_B2SF, E. unfold SF2R, F2R. cbn [Fnum Fexp cond_Zopp].
        change 4503599627370496%Z with (radix2 ^ 52)%Z. rewrite IZR_Zpower by lia. rewrite <- bpow_plus. reflexivity. }
      assert (B : B2R (py_div a b) <= / 2).
      { rewrite <- Eh. rewrite Bleb_correct in L2 by (auto; vm_compute; reflexivity). revert L2. case Rle_bool_spec; [auto|discriminate]. }
      destruct (of_py_R prec emax H2 (py_div a b) F ltac:(lra)) as [U E]. split; [exact U|]. rewrite E.
      apply rnd_le_fmt; [exact Hp|now apply format_half|exact B].
    Qed.
    Lemma atol_ok : funit (f_of_py (py_div 1 100000000) : bf) /\ 0 <= atol <= / 2.
    Proof. destruct (py_half 1 100000000) as [U L]; [vm_compute; reflexivity|]. split; [exact U|]. split; [apply U|exact L]. Qed.
    Lemma rtol_ok : funit (f_of_py (py_div 1 100000) : bf) /\ 0 <= rtol <= / 2.
    Proof. destruct (py_half 1 100000) as [U L]; [vm_compute; reflexivity|]. split; [exact U|]. split; [apply U|exact L]. Qed.
    (** The constants are 10^-8 and 10^-5 up to two roundings. *)
    Lemma py_near (x : pyfloat) m k (c : R) : B2SF x = SpecFloat.S754_finite false m (- k) -> (0 <= k)%Z -> 0 < c ->
      Rabs (IZR (Zpos m) - c * IZR (2 ^ k)) <= / 9007199254740992 * c * IZR (2 ^ k) ->
      is_finite x = true -> 0 <= B2R x <= 1 ->
      Rabs (B2R (f_of_py x : bf) - c) <= (u + / 9007199254740992 + u * / 9007199254740992) * c + h.
    Proof.
      intros E Hk Hc Hb F Bx. destruct (of_py_R prec emax H2 x F Bx) as [_ ->].
      destruct (rnd_mult_error prec emax (B2R x)) as (d & n & Hd & Hn & ->).
      assert (Ex : B2R x = IZR (Zpos m) * / IZR (2 ^ k)).
      { rewrite <- SF2R_B2SF, E. unfold SF2R, F2R. cbn [Fnum Fexp cond_Zopp]. f_equal. rewrite bpow_opp. f_equal.
        symmetry. now apply (IZR_Zpower radix2). }
      assert (P2 : 0 < IZR (2 ^ k)) by (apply IZR_lt, Z.pow_pos_nonneg; lia).
      assert (Hx : Rabs (B2R x - c) <= / 9007199254740992 * c).
      { apply Rmult_le_reg_r with (IZR (2 ^ k)); [exact P2|]. rewrite <- (Rabs_pos_eq (IZR (2 ^ k))) at 1 by lra.
        rewrite <- Rabs_mult. eapply Rle_trans; [|exact Hb]. right. f_equal. rewrite Ex. field. lra. }
      apply Rabs_le_inv in Hd. apply Rabs_le_inv in Hn. apply Rabs_le_inv in Hx. pose proof u_small.
      set (w := / 9007199254740992) in *. assert (0 < w <= / 4) by (unfold w; lra). clearbody w.
      assert (Q : - (u * ((1 + w) * c)) <= B2R x * d <= u * ((1 + w) * c)) by (split; nra).
      apply Rabs_le. split; nra.
    Qed.
    Lemma atol_near : Rabs (atol - / 100000000) <= (u + / 9007199254740992 + u * / 9007199254740992) * / 100000000 + h.
    Proof.
      assert (E : B2SF (py_div 1 100000000) = SpecFloat.S754_finite false 6044629098073146 (-79)) by (vm_compute; reflexivity).
      apply (py_near _ _ 79 _ E); try lia; try lra; try (vm_compute; reflexivity).
      - change (2 ^ 79)%Z with 604462909807314587353088%Z. apply Rabs_le. split; lra.
      - rewrite <- SF2R_B2SF, E. unfold SF2R, F2R. cbn [Fnum Fexp cond_Zopp bpow]. change (Z.pow_pos radix2 79) with 604462909807314587353088%Z. split; lra.
    Qed.
    Lemma rtol_near : Rabs (rtol - / 100000) <= (u + / 9007199254740992 + u * / 9007199254740992) * / 100000 + h.
    Proof.
      assert (E : B2SF (py_div 1 100000) = SpecFloat.S754_finite false 5902958103587057 (-69)) by (vm_compute; reflexivity).
      apply (py_near _ _ 69 _ E); try lia; try lra; try (vm_compute; reflexivity).
      - change (2 ^ 69)%Z with 590295810358705651712%Z. apply Rabs_le. split; lra.
      - rewrite <- SF2R_B2SF, E. unfold SF2R, F2R. cbn [Fnum Fexp cond_Zopp bpow]. change (Z.pow_pos radix2 69) with 590295810358705651712%Z. split; lra.
    Qed.
    Definition tolerance (y : bf) : bf := f_add (f_of_py (py_div 1 100000000)) (f_mul (f_of_py (py_div 1 100000)) (Babs y)).
    Lemma emax_halves : bpow radix2 emax = 2 * bpow radix2 (emax - 1).
    Proof. change 2 with (bpow radix2 1). rewrite <- bpow_plus. f_equal. lia. Qed.
    Lemma big_format : generic_format radix2 fexp (bpow radix2 (emax - 1)).
    Proof. apply generic_format_bpow. unfold SpecFloat.fexp, SpecFloat.emin. pose proof (emax_3 prec emax H2). lia. Qed.
    Lemma big_format2 : generic_format radix2 fexp (bpow radix2 (emax - 1) + bpow radix2 (emax - 2)).
    Proof.
      apply generic_format_FLT. exists (Float radix2 3 (emax - 2)).
      - unfold F2R. cbn [Fnum Fexp]. replace (emax - 1)%Z with (1 + (emax - 2))%Z by lia. rewrite bpow_plus.
        change (bpow radix2 1) with 2. lra.
      - cbn [Fnum]. change (Z.abs 3) with 3%Z. change (radix_val radix2) with 2%Z.
        assert (2 ^ 2 <= 2 ^ prec)%Z by (apply Z.pow_le_mono_r; lia). change (2 ^ 2)%Z with 4%Z in *. lia.
      - cbn [Fexp]. unfold SpecFloat.emin. pose proof (emax_3 prec emax H2). lia.
    Qed.
    Lemma product_ok (y : bf) : is_finite y = true ->
      is_finite (f_mul (f_of_py (py_div 1 100000)) (Babs y)) = true /\
      B2R (f_mul (f_of_py (py_div 1 100000)) (Babs y)) = rnd (rtol * Rabs (B2R y)) /\
      0 <= rnd (rtol * Rabs (B2R y)) <= bpow radix2 (emax - 1).
    Proof.
      intros F. destruct rtol_ok as [[Fr _] Br].
      assert (Bd : 0 <= rtol * Rabs (B2R y) <= bpow radix2 (emax - 1)).
      { pose proof (abs_B2R_lt_emax prec emax y) as L. rewrite emax_halves in L. pose proof (Rabs_pos (B2R y)). nra. }
      assert (Rd : 0 <= rnd (rtol * Rabs (B2R y)) <= bpow radix2 (emax - 1)).
      { split; [apply rnd_ge_fmt; [exact Hp|apply generic_format_0|apply Bd]|apply rnd_le_fmt; [exact Hp|apply big_format|apply Bd]]. }
      pose proof (Bmult_correct prec emax Hp Hm mode_NE (f_of_py (py_div 1 100000)) (Babs y)) as X. cbn [round_mode] in X.
      rewrite B2R_Babs, is_finite_Babs, Fr, F in X. fold rtol in X. rewrite Rlt_bool_true in X.
      - destruct X as (X1 & X2 & _). split; [exact X2|]. split; [exact X1|exact Rd].
      - rewrite Rabs_pos_eq by apply Rd. eapply Rle_lt_trans; [apply Rd|]. apply bpow_lt. lia.
    Qed.
    Lemma tolerance_ok (y : bf) : is_finite y = true ->
      is_finite (tolerance y) = true /\
      (1 - u) * (1 - u) * (atol + rtol * Rabs (B2R y)) - h <= B2R (tolerance y) /\
      B2R (tolerance y) <= (1 + u) * (1 + u) * (atol + rtol * Rabs (B2R y)) + (1 + u) * h.
    Proof.
      intros F. destruct (product_ok y F) as (Fm & Rm & Bm). destruct atol_ok as [[Fa _] Ba].
      destruct rtol_ok as [_ Br]. pose proof u_small as Us. pose proof (eta_pos prec emax) as Hh.
      set (m := f_mul (f_of_py (py_div 1 100000)) (Babs y)) in *.
      assert (Sd : 0 <= atol + B2R m <= bpow radix2 (emax - 1) + bpow radix2 (emax - 2)).
      { rewrite Rm. split; [lra|]. assert (/ 2 <= bpow radix2 (emax - 2)); [|lra].
        change (/ 2) with (bpow radix2 (-1)). apply bpow_le. pose proof (emax_3 prec emax H2). lia. }
      assert (Sr : 0 <= rnd (atol + B2R m) <= bpow radix2 (emax - 1) + bpow radix2 (emax - 2)).
      { split; [apply rnd_ge_fmt; [exact Hp|apply generic_format_0|apply Sd]|apply rnd_le_fmt; [exact Hp|apply big_format2|apply Sd]]. }
      destruct (add_finite prec emax (f_of_py (py_div 1 100000000)) m Fa Fm) as [Ft Et].
      { fold atol. rewrite Rabs_pos_eq by apply Sr. eapply Rle_lt_trans; [apply Sr|].
        rewrite emax_halves. replace (emax - 1)%Z with (1 + (emax - 2))%Z by lia. rewrite !bpow_plus.
        change (bpow radix2 1) with 2. pose proof (bpow_gt_0 radix2 (emax - 2)). lra. }
      split; [exact Ft|]. unfold tolerance. fold m. rewrite Et. fold atol.
      destruct (rnd_plus_error prec emax atol (B2R m)) as (d & Hd & Ed); [apply fmt|apply fmt|]. rewrite Ed.
      destruct (rnd_mult_error prec emax (rtol * Rabs (B2R y))) as (d2 & n & Hd2 & Hn & Em). rewrite Rm, Em.
      rewrite Em in Bm. apply Rabs_le_inv in Hd. apply Rabs_le_inv in Hd2. apply Rabs_le_inv in Hn.
      pose proof (Rabs_pos (B2R y)) as Py. set (q := rtol * Rabs (B2R y)) in *.
      assert (Pq : 0 <= q) by (unfold q; nra).
      split.
      - assert (L1 : (1 - u) * (atol + q) - h <= atol + (q * (1 + d2) + n)) by nra.
        assert (L2 : (1 - u) * (atol + (q * (1 + d2) + n)) <= (atol + (q * (1 + d2) + n)) * (1 + d)) by nra.
        assert (L3 : (1 - u) * ((1 - u) * (atol + q) - h) <= (1 - u) * (atol + (q * (1 + d2) + n))) by nra.
        nra.
      - assert (L1 : atol + (q * (1 + d2) + n) <= (1 + u) * (atol + q) + h) by nra.
        assert (L2 : (atol + (q * (1 + d2) + n)) * (1 + d) <= (atol + (q * (1 + d2) + n)) * (1 + u)) by nra.
        nra.
    Qed.
    Lemma sub_finite (x y : bf) : is_finite x = true -> is_finite y = true ->
      (is_finite (f_sub x y) = true /\ B2R (f_sub x y) = rnd (B2R x - B2R y)) \/
      (is_finite (f_sub x y) = false /\ is_nan (f_sub x y) = false /\ bpow radix2 emax <= Rabs (rnd (B2R x - B2R y))).
    Proof.
      intros Fx Fy. pose proof (Bminus_correct prec emax Hp Hm mode_NE x y Fx Fy) as X. cbn [round_mode] in X.
      destruct (Rlt_bool_spec (Rabs (rnd (B2R x - B2R y))) (bpow radix2 emax)) as [L|L].
      - left. destruct X as (X1 & X2 & _). split; [exact X2|exact X1].
      - right. destruct X as [X1 _]. unfold f_sub. destruct (Bminus mode_NE x y); cbn in X1; try discriminate.
        split; [reflexivity|]. split; [reflexivity|exact L].
    Qed.
    Lemma close_decision (x y : bf) : float_decision x y (f_close prec emax x y).
    Proof.
      assert (Fin : is_finite x = true -> is_finite y = true ->
        f_close prec emax x y = true <-> B2R x = B2R y \/ Bleb (Babs (f_sub x y)) (tolerance y) = true).
      { intros Fx Fy. unfold f_close. rewrite Fx, Fy. cbn [andb]. fold (tolerance y). rewrite orb_true_iff.
        rewrite (Beqb_correct prec emax x y Fx Fy). destruct (Req_bool_spec (B2R x) (B2R y)); intuition congruence. }
      assert (Fmt : forall z : bf, generic_format radix2 fexp (B2R z)) by (intros; apply generic_format_B2R).
      split.
      - intros [H|H]; unfold f_close; [destruct x|destruct y]; try discriminate; cbn [is_finite].
        + destruct y as [[|]|[|]| |[|] ? ? ?]; reflexivity.
        + rewrite andb_false_r. cbn [andb]. destruct x as [[|]|[|]| |[|] ? ? ?]; reflexivity.
      - intros H. assert (E : f_close prec emax x y = Beqb x y).
        { unfold f_close. destruct H as [-> | ->]; rewrite ?andb_false_r; cbn [andb]; apply orb_false_r. }
        rewrite E. clear E Fin. destruct x as [sx|sx| |sx mx ex Bx], y as [sy|sy| |sy my ey By]; cbn [is_finite is_nan] in *;
          try (destruct H; discriminate); try (destruct sx); try (destruct sy); cbn; split; try discriminate; try tauto;
          try (intros [H1 H3]; discriminate).
      - intros Fx Fy E. apply (Fin Fx Fy). now left.
      - intros Fx Fy uu hh L. subst uu hh. apply (Fin Fx Fy). right. destruct (tolerance_ok y Fy) as (Ft & T1 & _).
        assert (L2 : Rabs (B2R x - B2R y) <= B2R (tolerance y)) by lra.
        assert (L3 : Rabs (rnd (B2R x - B2R y)) <= B2R (tolerance y)).
        { apply Rabs_le_inv in L2. apply Rabs_le. split.
          - apply rnd_ge_fmt; [exact Hp|apply generic_format_opp, Fmt|lra].
          - apply rnd_le_fmt; [exact Hp|apply Fmt|lra]. }
        destruct (sub_finite x y Fx Fy) as [[Fs Es]|(_ & _ & G)].
        + rewrite Bleb_correct; [|now rewrite is_finite_Babs|exact Ft]. rewrite B2R_Babs, Es. now apply Rle_bool_true.
        + exfalso. pose proof (abs_B2R_lt_emax prec emax (tolerance y)). pose proof (Rle_abs (B2R (tolerance y))). lra.
      - intros Fx Fy Hb uu hh. subst uu hh. apply (Fin Fx Fy) in Hb. destruct (tolerance_ok y Fy) as (Ft & _ & T2).
        pose proof u_small as Us. pose proof (eta_pos prec emax) as Hh. destruct atol_ok as [_ Ba]. destruct rtol_ok as [_ Br].
        pose proof (Rabs_pos (B2R y)) as Py.
        destruct Hb as [E|L].
        + rewrite E, Rminus_eq_0, Rabs_R0. assert (0 <= rtol * Rabs (B2R y)) by nra. nra.
        + destruct (sub_finite x y Fx Fy) as [[Fs Es]|(Fs & Ns & _)].
          * rewrite Bleb_correct in L; [|now rewrite is_finite_Babs|exact Ft]. rewrite B2R_Babs, Es in L.
            assert (L' : Rabs (rnd (B2R x - B2R y)) <= B2R (tolerance y)) by (revert L; case Rle_bool_spec; [auto|discriminate]).
            destruct (rnd_plus_error prec emax (B2R x) (- B2R y)) as (d & Hd & Ed); [apply Fmt|apply generic_format_opp, Fmt|].
            fold (B2R x - B2R y) in Ed. rewrite Ed, Rabs_mult in L'. apply Rabs_le_inv in Hd.
            rewrite (Rabs_pos_eq (1 + d)) in L' by lra. pose proof (Rabs_pos (B2R x - B2R y)). nra.
          * exfalso. destruct (f_sub x y) as [s|s| |s m e B]; try discriminate. cbn [Babs] in L.
            destruct (tolerance y) as [[|]|[|]| |[|] ? ? ?]; discriminate.
    Qed.
  End Facts.
End Formats.

