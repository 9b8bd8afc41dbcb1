(** * IEEE-754: two runs of the scalar program, and the size of the remainder *)
From Coq Require Import ZArith Reals Lia Lra Psatz.
From Flocq Require Import Core BinarySingleNaN.
From Verif Require Import Base PyTree Tensor Num FloatNum States Controller Wf History ElementSpec ScalarSpec FloatSpec.
From Verif Require Import IterateFacts ScalarFacts FloatFacts FloatFacts2 FloatFacts3 FloatFacts4.

Section Two.
  Context (prec emax : Z) {Hp : Prec_gt_0 prec} {Hm : Prec_lt_emax prec emax} (H2 : (2 <= prec)%Z).
  Notation N := (FloatNum prec emax).
  Notation bf := (binary_float prec emax).
  Local Open Scope R_scope.
  Context (s1 s2 : state N) (E1 : eps_ok (epsilon s1)) (E2 : eps_ok (epsilon s2)).
  Context (D1 : dep_ok prec emax (depression_constant s1)) (D2 : dep_ok prec emax (depression_constant s2)).
  Context (LE : B2R (epsilon s1 : pyfloat) <= B2R (epsilon s2 : pyfloat)).
  Context (LD : B2R (depression_constant s1 : pyfloat) <= B2R (depression_constant s2 : pyfloat)).
  Notation dep s := (v_of_scl N (depression_constant s)).
  Record fbehind (x y : stats N) : Prop := {
    fb_x : funit (cumulative x : bf); fb_y : funit (cumulative y : bf);
    fb_le : B2R (cumulative x : bf) <= B2R (cumulative y : bf);
    fb_n : exists a b, counts (steps x : bf) a /\ counts (steps y : bf) b /\ (0 <= b <= a)%Z /\ (a <= 2 ^ prec)%Z }.
  Lemma fbehind_over x y : fbehind x y -> is_over (threshold s1) x = true -> is_over (threshold s2) y = true.
  Proof.
    intros [X Y L _] H. assert (A : halted_at s1 (cumulative x) = true) by exact H.
    apply (halted_R prec emax H2 s1 _ E1 X) in A. apply (halted_R prec emax H2 s2 _ E2 Y).
    pose proof (threshold_mono prec emax H2 s1 s2 E1 E2 LE). lra.
  Qed.
  Lemma fbehind_step x y (v w : bf) : fbehind x y -> Bleb v w = true ->
    fbehind (stats_step (threshold s1) (dep s1) x v) (stats_step (threshold s2) (dep s2) y w).
  Proof.
    intros B L. pose proof (fbehind_over x y B) as O. destruct B as [X Y Le (a & b & Ca & Cb & Ba & Bb)].
    destruct (step_mono prec emax H2 s1 s2 (cumulative x) (cumulative y) v w E1 E2 D1 D2 LE LD X Y Le L) as (U1 & U2 & M).
    split; [exact U1|exact U2|exact M|]. cbn [steps stats_step].
    assert (P2 : (0 < 2 ^ prec)%Z) by (apply Z.pow_pos_nonneg; lia).
    destruct (is_over (threshold s1) x) eqn:Ox.
    - rewrite (O eq_refl). exists a, b. auto.
    - pose proof (count_step prec emax H2 (steps x) a ltac:(lia) Ca) as Ca'.
      destruct (is_over (threshold s2) y).
      + exists (Z.min (a + 1) (2 ^ prec))%Z, b. repeat split; try apply Ca'; try apply Cb; lia.
      + pose proof (count_step prec emax H2 (steps y) b ltac:(lia) Cb) as Cb'.
        exists (Z.min (a + 1) (2 ^ prec))%Z, (Z.min (b + 1) (2 ^ prec))%Z. repeat split; try apply Ca'; try apply Cb'; lia.
  Qed.
  Lemma fbehind_run vs : forall ws x y, fbehind x y -> Forall2 (fun v w : val N => Bleb (v : bf) w = true) vs ws ->
    fbehind (stats_run (threshold s1) (dep s1) x (map Some vs)) (stats_run (threshold s2) (dep s2) y (map Some ws)).
  Proof.
    induction vs as [|v vs IH]; intros ws x y B F; inversion F; subst; [exact B|].
    cbn [map stats_run fold_left stats_event]. apply IH; auto. now apply fbehind_step.
  Qed.
  Lemma fbehind0 : fbehind stats0 stats0.
  Proof.
    split; try apply (zero_unit prec emax); try (cbn; lra). exists 0%Z, 0%Z.
    assert (0 < 2 ^ prec)%Z by (apply Z.pow_pos_nonneg; lia). repeat split; try reflexivity; lia.
  Qed.
End Two.

Section Remainder.
  Context (prec emax : Z) {Hp : Prec_gt_0 prec} {Hm : Prec_lt_emax prec emax} (H2 : (2 <= prec)%Z).
  Notation N := (FloatNum prec emax).
  Notation bf := (binary_float prec emax).
  Notation rnd := (round radix2 (SpecFloat.fexp prec emax) ZnearestE).
  Local Open Scope R_scope.
  Context (s : state N) (He : eps_ok (epsilon s)) (Hd : dep_ok prec emax (depression_constant s)).
  Notation thr := (threshold s).
  Notation dep := (v_of_scl N (depression_constant s)).
  Notation T := (B2R (threshold s : bf)).
  Context (HT : T < 1).

  Record fremainder (x : stats N) : Prop := {
    fr_sane : sane prec emax s x;
    fr_unit : funit (remainder x : bf);
    fr_over : is_over thr x = true -> rnd (1 - T) <= B2R (remainder x : bf);
    fr_run : is_over thr x = false -> B2R (remainder x : bf) = 0 }.
  Lemma fremainder0 : fremainder stats0.
  Proof.
    pose proof (sane0 prec emax H2 s He) as S0. split; auto; try apply (zero_unit prec emax).
    intros H. pose proof (sn_over _ _ _ _ S0 H) as X. cbn [cumulative stats0] in X.
    exfalso. apply (f_equal (B2R (prec := prec) (emax := emax))) in X. rewrite one_R in X. cbn in X. lra.
  Qed.
  Lemma fremainder_step x (v : bf) : fremainder x -> is_nan v = false -> fremainder (stats_step thr dep x v).
  Proof.
    intros [S U O R] Nn. pose proof (sane_step prec emax H2 s He Hd x v S Nn) as S'. pose proof (sn_unit _ _ _ _ S) as Ux.
    destruct (sub_one prec emax H2 (cumulative x) Ux) as [Su Sr].
    assert (Rm : remainder (stats_step thr dep x v) = if halts_now s (cumulative x) v && negb (is_over thr x) then f_sub f_one (cumulative x : bf) else remainder x)
      by reflexivity.
    split; [exact S'| | |]; rewrite Rm.
    - destruct (_ && _); [exact Su|exact U].
    - intros H. destruct (is_over thr x) eqn:Ox; [rewrite andb_false_r; exact (O eq_refl)|]. cbn [negb]. rewrite andb_true_r.
      destruct (halts_now s (cumulative x) v) eqn:Eh.
      + rewrite Sr. apply rnd_le; [exact Hp|].
        assert (~ T < B2R (cumulative x : bf)); [|lra]. intros X. apply (halted_R prec emax H2 s _ He Ux) in X.
        change (halted_at s (cumulative x)) with (is_over thr x) in X. congruence.
      + exfalso. destruct (running_step prec emax H2 s He Hd (cumulative x) v Ux Nn Eh) as (_ & _ & _ & L).
        change (is_over thr (stats_step thr dep x v)) with (halted_at s (next_p s (cumulative x) v)) in H.
        apply (halted_R prec emax H2 s _ He) in H; [lra|]. exact (sn_unit _ _ _ _ S').
    - intros H. destruct (halts_now s (cumulative x) v) eqn:Eh.
      + exfalso. destruct (halting_step prec emax H2 s (cumulative x) v Ux Eh) as [_ E].
        change (is_over thr (stats_step thr dep x v)) with (halted_at s (next_p s (cumulative x) v)) in H. rewrite E in H.
        assert (X : halted_at s (f_one : bf) = true); [|congruence].
        apply (halted_R prec emax H2 s _ He (one_unit prec emax)). rewrite one_R. exact HT.
      + cbn [andb]. apply R. destruct (is_over thr x) eqn:Ox; [|reflexivity].
        pose proof (over_step prec emax H2 s He Hd x v S Nn Ox). congruence.
  Qed.
  Lemma fremainder_reset x : fremainder x -> fremainder (stats_reset thr x).
  Proof.
    intros [S U O R]. unfold stats_reset, switch. cbn [v_mul v_zero v_one FloatNum].
    pose proof (sn_unit _ _ _ _ S) as Ux. pose proof (threshold_unit prec emax H2 s He) as [_ [T0 _]].
    destruct (is_over thr x) eqn:Ox.
    - assert (Z : forall y : bf, is_finite y = true -> exists sg, f_mul y f_zero = B754_zero sg).
      { intros [sg|sg| |sg m e Hb] F; try discriminate; cbn; eauto. }
      destruct (Z (cumulative x) (proj1 Ux)) as [sg Ec]. destruct (Z (remainder x) (proj1 U)) as [sr Er].
      assert (No : halted_at s (B754_zero sg : bf) = false).
      { destruct (halted_at s (B754_zero sg : bf)) eqn:E; [|reflexivity]. exfalso.
        apply (halted_R prec emax H2 s _ He) in E; [change (B2R (B754_zero sg : bf)) with 0 in E; lra|]. split; [reflexivity|cbn; lra]. }
      split.
      + split; cbn [cumulative]; rewrite Ec; [split; [reflexivity|cbn; lra]|]. intros H. exfalso.
        change (halted_at s (B754_zero sg : bf) = true) in H. congruence.
      + cbn [remainder]. rewrite Er. split; [reflexivity|cbn; lra].
      + intros H. exfalso. change (halted_at s (f_mul (cumulative x : bf) f_zero) = true) in H. rewrite Ec in H. congruence.
      + intros _. cbn [remainder]. rewrite Er. reflexivity.
    - assert (E : mkStats (N := N) (f_mul (cumulative x : bf) f_one) (f_mul (remainder x : bf) f_one) (f_mul (steps x : bf) f_one) =
                  mkStats (cumulative x) (remainder x) (f_mul (steps x : bf) f_one)) by (now rewrite !mul_one_r).
      rewrite E. destruct S as [S1 S2]. split; [split; [exact S1|exact S2]|exact U|intros H; apply O; change (is_over thr x = true) in H; congruence|intros _; exact (R eq_refl)].
  Qed.
  Lemma fremainder_run es : forall x, fremainder x ->
    Forall (fun o : option (val N) => match o with Some v => is_nan (v : bf) = false | None => True end) es ->
    fremainder (stats_run thr dep x es).
  Proof.
    induction es as [|[v|] es IH]; intros x H F; [exact H| |]; inversion F; subst; cbn [stats_run fold_left stats_event]; apply IH; auto.
    - now apply fremainder_step.
    - now apply fremainder_reset.
  Qed.
End Remainder.
