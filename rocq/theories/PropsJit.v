(** * Properties: compiled against eager execution (C78). Vocabulary: Jit.v, JitSpec.v, FloatSpec.v. *)
From Coq Require Import ZArith Reals Lia Lra Psatz.
From Flocq Require Import Core BinarySingleNaN.
From Verif Require Import Base PyTree Tensor Num FloatNum FloatSpec Utils States Controller Builder Viewer Layers
  Wf History ElementSpec BuilderSpec LayerSpec Jit JitSpec.
From Verif Require Import BaseFacts PyTreeFacts TensorFacts IterateFacts HistoryFacts ExactFacts LayerFacts2 BuilderFacts TraceSpec TraceFacts MoveFacts FloatFacts FloatFacts2
  FloatFacts3 JitFacts.
From Verif Require Import PropsController PropsFloat.
Close Scope R_scope. Close Scope Z_scope. Open Scope string_scope. Open Scope list_scope. Open Scope nat_scope.

(** ** C78 *)
Lemma spec_dec (x y : SpecFloat.spec_float) : {x = y} + {x <> y}.
Proof. decide equality; try apply Bool.bool_dec; try apply Z.eq_dec; apply Pos.eq_dec. Qed.
Section Equal.
  Context {prec emax : Z} {Hp : Prec_gt_0 prec} {Hm : Prec_lt_emax prec emax} (H2 : (2 <= prec)%Z).
  Notation F := (FloatNum prec emax).
  Notation J := (JitNum prec emax).
  Notation bf := (binary_float prec emax).

  Lemma survives_ltb eps (x : bf) : eps_ok eps -> epsilon_survives prec emax eps ->
    Bltb (f_of_py (Bminus mode_NE Bone eps) : bf) x = Bltb (f_conv prec emax (Bminus mode_NE Bone (trace_scalar eps)) : bf) x.
  Proof.
    intros He S. destruct (eager_R prec emax H2 eps He) as [[A _] _], (compiled_R prec emax H2 eps He) as [[B _] _].
    now apply (ltb_same prec emax (eager_threshold prec emax eps) (compiled_threshold prec emax eps)).
  Qed.
  Lemma into_jit_rel (s : state F) e d : epsilon s = e -> depression_constant s = d ->
    rs (N := F) (M := J) (fun x y : bf => y = x) e (trace_scalar e) d (trace_scalar d) s (into_jit s).
  Proof. intros E D. apply (rs_move (N := F) (M := J) (fun x => x) trace_scalar). auto. Qed.
  Lemma rel_into_jit (s : state F) s' e d :
    rs (N := F) (M := J) (fun x y : bf => y = x) e (trace_scalar e) d (trace_scalar d) s s' -> s' = into_jit s.
  Proof. intros H. apply (rs_move (N := F) (M := J) (fun x => x) trace_scalar) in H. apply H. Qed.
  Lemma rr_into_jit e d r r' :
    rr (rs (N := F) (M := J) (fun x y : bf => y = x) e (trace_scalar e) d (trace_scalar d)) r r' -> r' = outcome_map into_jit r.
  Proof. intros H. apply rr_outcome. revert H. apply rr_mono. intros a b. apply rel_into_jit. Qed.
End Equal.

(** If epsilon and the depression constant survive the conversion, compiled code computes exactly what
    eager code computes: the same exceptions, and after every history the same bits in every array. *)
Theorem C78_partial (prec emax : Z) {Hp : Prec_gt_0 prec} {Hm : Prec_lt_emax prec emax} (s : state (FloatNum prec emax)) cs :
  (2 <= prec)%Z -> eps_ok (epsilon s) ->
  epsilon_survives prec emax (epsilon s) -> depression_survives prec emax (depression_constant s) ->
  run (into_jit s) (map jit_call cs) = into_jit (run s cs) /\
  (forall c, apply_call (into_jit (run s cs)) (jit_call c) = outcome_map into_jit (apply_call (run s cs) c)) /\
  halted_batches (into_jit (run s cs)) = halted_batches (run s cs) /\
  unhalted_only (into_jit (run s cs)) = outcome_map into_jit (unhalted_only (run s cs)) /\
  halted_only (into_jit (run s cs)) = outcome_map into_jit (halted_only (run s cs)).
Proof.
  intros H2 He S D. assert (T := fun x => survives_ltb H2 _ x He S).
  pose proof (jit_run_rr prec emax _ _ _ _ T D _ _ _ _ (jit_calls prec emax cs) (into_jit_rel s _ _ eq_refl eq_refl)) as R.
  pose proof (rel_into_jit _ _ _ _ R) as E. split; [exact E|]. rewrite E in R.
  split; [|split; [symmetry; exact (jit_halted prec emax _ _ _ _ T _ _ R)|]].
  - intros c. apply (rr_into_jit (epsilon s) (depression_constant s)). apply (jit_call_rr prec emax _ _ _ _ T D); [exact R|].
    now apply (rcall_move (N := FloatNum prec emax) (M := JitNum prec emax) (fun x => x)).
  - destruct (jit_views prec emax _ _ _ _ T _ _ R) as [A B]. split; now apply (rr_into_jit (epsilon s) (depression_constant s)).
Qed.
Print Assumptions C78_partial.
(** Which settings survive: in every format an epsilon that is a multiple of 2^-24 and the depression
    constant 1.0; for float32 arrays every depression constant, and every epsilon that is a float32
    number and a multiple of 2^-53 (such as any float32 number from 2^-30 on). *)
Theorem C78_partial_survivors (prec emax : Z) {Hp : Prec_gt_0 prec} {Hm : Prec_lt_emax prec emax} (eps dep : pyfloat) :
  (2 <= prec)%Z -> eps_ok eps ->
  ((exists k, B2R eps = IZR k * bpow radix2 (-24))%R -> epsilon_survives prec emax eps) /\
  depression_survives prec emax Bone /\
  depression_survives 24 128 dep /\
  (generic_format radix2 (SpecFloat.fexp 24 128) (B2R eps) -> (exists k, B2R eps = IZR k * bpow radix2 (-53))%R ->
     epsilon_survives 24 128 eps) /\
  (generic_format radix2 (SpecFloat.fexp 24 128) (B2R eps) -> (bpow radix2 (-30) <= B2R eps)%R -> epsilon_survives 24 128 eps).
Proof.
  intros H2 He. split; [now apply grid_survives|]. split; [now apply one_depression|]. split; [apply single_depression|].
  split; [intros; now apply single_survives|].
  intros Fm L. apply single_survives; auto.
  exists (Ztrunc (scaled_mantissa radix2 (SpecFloat.fexp 24 128) (B2R eps)) * 2 ^ (cexp radix2 (SpecFloat.fexp 24 128) (B2R eps) + 53))%Z.
  assert (C : (-53 <= cexp radix2 (SpecFloat.fexp 24 128) (B2R eps))%Z).
  { unfold cexp, SpecFloat.fexp, SpecFloat.emin. assert (M : (-29 <= mag radix2 (B2R eps))%Z); [|lia].
    change (-29)%Z with (-30 + 1)%Z. rewrite <- (mag_bpow radix2 (-30)). apply mag_le; [apply bpow_gt_0|exact L]. }
  rewrite Fm at 1. unfold F2R. cbn [Fnum Fexp]. rewrite mult_IZR, Rmult_assoc. f_equal.
  change 2%Z with (radix_val radix2). rewrite (IZR_Zpower radix2) by lia. rewrite <- bpow_plus. f_equal. lia.
Qed.
Print Assumptions C78_partial_survivors.
(** In general compiled code computes what eager code computes with slightly different settings: an
    epsilon at most 2^-24 + 2^-(prec+1) away, and the depression constant rounded to float32 first. *)
Theorem C78_partial_other_epsilon (prec emax : Z) {Hp : Prec_gt_0 prec} {Hm : Prec_lt_emax prec emax} (eps dep : pyfloat) :
  (2 <= prec)%Z -> eps_ok eps -> exists eps' dep' : pyfloat,
    (eps_ok eps' /\ Rabs (B2R eps' - B2R eps) <= bpow radix2 (-24) + bpow radix2 (- prec - 1))%R /\
    B2R (eager_threshold prec emax eps') = B2R (compiled_threshold prec emax eps) /\
    (f_of_py dep' : binary_float prec emax) = f_conv prec emax (trace_scalar dep) /\
    (depression_survives prec emax dep -> dep' = dep) /\
    forall (s : state (FloatNum prec emax)) cs,
      epsilon s = (eps : scl (FloatNum prec emax)) -> depression_constant s = (dep : scl (FloatNum prec emax)) ->
      let compiled x := with_settings (into_jit x) (trace_scalar eps : scl (JitNum prec emax)) (trace_scalar dep) in
      let s' := with_settings s (eps' : scl (FloatNum prec emax)) dep' in
      run (into_jit s) (map jit_call cs) = compiled (run s' cs) /\
      (forall c, apply_call (compiled (run s' cs)) (jit_call c) = outcome_map compiled (apply_call (run s' cs) c)) /\
      halted_batches (compiled (run s' cs)) = halted_batches (run s' cs).
Proof.
  intros H2 He. destruct (other_epsilon prec emax H2 eps He) as (eps' & He' & ET & EB).
  assert (XD : exists dep' : pyfloat, (f_of_py dep' : binary_float prec emax) = f_conv prec emax (trace_scalar dep) /\
                (depression_survives prec emax dep -> dep' = dep)).
  { assert (Dec : {(f_of_py dep : binary_float prec emax) = f_conv prec emax (trace_scalar dep)} +
                  {(f_of_py dep : binary_float prec emax) <> f_conv prec emax (trace_scalar dep)}).
    { destruct (spec_dec (B2SF (f_of_py dep : binary_float prec emax)) (B2SF (f_conv prec emax (trace_scalar dep)))) as [E|E].
      - left. now apply B2SF_inj.
      - right. intros X. apply E. now rewrite X. }
    destruct Dec as [E|E]; [exists dep; auto|]. exists (widen (trace_scalar dep)). split; [apply of_py_widen|].
    intros X. now elim E. }
  destruct XD as (dep' & ED & EI). exists eps', dep'. split; [auto|]. split; [exact ET|]. split; [exact ED|]. split; [exact EI|].
  intros s cs Es Ds compiled s'.
  assert (T : forall x : binary_float prec emax, Bltb (f_of_py (Bminus mode_NE Bone eps') : binary_float prec emax) x =
    Bltb (f_conv prec emax (Bminus mode_NE Bone (trace_scalar eps))) x).
  { intros x. destruct (eager_R prec emax H2 eps' He') as [[A _] _], (compiled_R prec emax H2 eps He) as [[B _] _].
    now apply (ltb_same prec emax (eager_threshold prec emax eps') (compiled_threshold prec emax eps)). }
  set (rel := rs (N := FloatNum prec emax) (M := JitNum prec emax) (fun x y : binary_float prec emax => y = x) eps' (trace_scalar eps) dep' (trace_scalar dep)).
  assert (Q : forall a b, rel a b <-> epsilon a = (eps' : scl (FloatNum prec emax)) /\ depression_constant a = (dep' : scl (FloatNum prec emax)) /\ b = compiled a)
    by (intros a b; exact (rs_settings (N := FloatNum prec emax) (M := JitNum prec emax) (fun x => x) eps' (trace_scalar eps) dep' (trace_scalar dep) a b)).
  assert (R0 : rel s' (into_jit s)).
  { apply Q. split; [reflexivity|]. split; [reflexivity|]. unfold compiled, s', into_jit, with_settings, move. cbn. now rewrite Es, Ds. }
  pose proof (jit_run_rr prec emax _ _ _ _ T ED _ _ _ _ (jit_calls prec emax cs) R0) as R. fold rel in R.
  assert (E := proj2 (proj2 (proj1 (Q _ _) R))). split; [exact E|]. rewrite E in R. split.
  - intros c. apply rr_outcome. eapply rr_mono; [|apply (jit_call_rr prec emax _ _ _ _ T ED); [exact R|]].
    + intros a b X. now apply Q in X.
    + now apply (rcall_move (N := FloatNum prec emax) (M := JitNum prec emax) (fun x => x)).
  - symmetry. exact (jit_halted prec emax _ _ _ _ T _ _ R).
Qed.
Print Assumptions C78_partial_other_epsilon.

Section FirstStep.
  Context {prec emax : Z} {Hp : Prec_gt_0 prec} {Hm : Prec_lt_emax prec emax} (H2 : (2 <= prec)%Z).
  Notation F := (FloatNum prec emax).
  Notation bf := (binary_float prec emax).
  (** The first iteration of a controller with depression 1.0, all of whose elements receive [t]. *)
  Lemma first_step (s : state F) (t : bf) : wf s -> wf_pending s -> ready s -> Forall (eq (f_zero : bf)) (a_data (probabilities s)) ->
    eps_ok (epsilon s) -> depression_constant s = (Bone : pyfloat) -> funit t -> (0 < B2R t)%R ->
    exists s1, iterate_act s (a_full (N := F) (batch_shape s) t (a_dt (probabilities s))) = Ok s1 /\
      forall i b, halted s1 i = Some b -> b = Bltb (threshold s : bf) t.
  Proof.
    intros W P Rd Z He Hd Ut Pt. set (h := a_full (N := F) (batch_shape s) t (a_dt (probabilities s))).
    assert (A : awf h) by apply twf_full.
    destruct (proj2 (iterate_ok_iff s h W P A)) as [s1 H1].
    { split; [reflexivity|]. split; [|exact Rd]. cbn. pose proof (wf_p_float _ W) as X. now destruct (a_dt (probabilities s)). }
    exists s1. split; [exact H1|]. intros i b Hb. destruct (iterate_committed s h s1 W P A H1) as (C & W1 & _).
    apply halted_get_inv in Hb as (p1 & Hp1 & ->).
    assert (L : i < size (batch_shape s)).
    { assert (X : List.length (a_data (probabilities s1)) = size (batch_shape s)).
      { pose proof (wf_p _ W1) as Y. unfold awf, twf in Y. unfold a_data. rewrite Y. pose proof (cm_p_sig _ _ _ C) as S. unfold sig in S.
        apply (f_equal fst) in S. cbn [fst] in S. unfold batch_shape, a_shape in *. now rewrite S. }
      rewrite <- X. apply nth_error_Some. congruence. }
    assert (Hh : nth_error (a_data h) i = Some (t : val F)) by now apply nth_error_repeat.
    destruct (nth_error (a_data (probabilities s)) i) as [p|] eqn:Hp0.
    2:{ apply nth_error_None in Hp0. pose proof (wf_p _ W) as Y. unfold awf, twf in Y. unfold a_data in Hp0. unfold batch_shape, a_shape in L. lia. }
    assert (p = (f_zero : bf)) as -> by (rewrite Forall_forall in Z; symmetry; apply Z; eapply nth_error_In; eauto).
    pose proof (cm_p _ _ _ C i _ _ Hp0 Hh) as X. rewrite X in Hp1. apply (f_equal (fun o => match o with Some x => x | None => p1 end)) in Hp1. subst p1.
    assert (Cl : clip01 (N := F) t = t).
    { apply (B2R_inj prec emax). 
      - unfold clip01; cbn. destruct (clip_unit prec emax t) as [Fi _]; [destruct Ut as [Ft _]; now destruct t|].
        assert (R := clip_id prec emax t Ut). destruct (f_min _ _); try discriminate; auto. cbn [B2R] in R. lra.
      - destruct Ut as [Ft _]. destruct t; try discriminate; auto. cbn [B2R] in Pt. lra.
      - apply (clip_id prec emax t Ut). }
    assert (Sc : scaled s t = t).
    { unfold scaled. rewrite Cl, Hd. cbn [v_mul v_of_scl FloatNum]. rewrite (of_py_one prec emax H2). apply mul_one_l. }
    assert (Pos : exists m e Hb, t = B754_finite false m e Hb).
    { destruct Ut as [Ft Bt]. destruct t as [| | |sg m e Hb]; try discriminate.
      - cbn in Pt. lra.
      - destruct sg; [|eauto]. exfalso. cbn [B2R] in Pt. revert Pt. unfold F2R. cbn [Fnum Fexp cond_Zopp].
        pose proof (bpow_gt_0 radix2 e) as Q1. pose proof (IZR_lt _ _ (Pos2Z.neg_is_neg m)) as Q2. change (- Z.pos m)%Z with (Z.neg m). nra. }
    destruct (threshold_unit prec emax H2 s He) as [Tf Tb].
    unfold halted_at, threshold. rewrite (cm_eps _ _ _ C). fold (threshold s). cbn [v_ltb FloatNum].
    unfold next_p, weight, halts_now. rewrite Sc. cbn [v_ltb v_add v_sub v_one FloatNum].
    assert (A1 : f_add t f_zero = t) by (destruct Pos as (m & e & Hb & ->); reflexivity).
    assert (A2 : f_add f_zero t = t) by (destruct Pos as (m & e & Hb & ->); reflexivity).
    rewrite A1. destruct (Bltb (threshold s : bf) t) eqn:E; [|now rewrite A2].
    assert (O : f_add f_zero (f_sub f_one f_zero) = (f_one : bf)).
    { destruct (sub_one prec emax H2 f_zero) as [[Fi _] R]; [split; cbn; auto; lra|].
      assert (Sb : f_sub f_one f_zero = (f_one : bf)).
      { apply eq_one; [exact Fi|]. unfold f_sub, f_one in *. rewrite R. cbn [B2R f_zero]. rewrite Rminus_0_r. now apply rnd_1. }
      rewrite Sb. assert (Y : (0 < B2R (f_one : bf))%R) by (rewrite one_R; lra). destruct (f_one : bf) as [| | |sg m e Hb]; try (cbn in Y; lra); reflexivity. }
    rewrite O. apply (ltb_R prec emax); auto; [apply one_unit|]. rewrite one_R.
    apply (ltb_R prec emax) in E; auto; [|apply Ut]. destruct Ut. lra.
  Qed.
End FirstStep.
(** Violated, whenever epsilon does not survive: some halting values make every element halt in one of
    the two and none in the other, in the first iteration, in every format. *)
Theorem C78_refuted (prec emax : Z) {Hp : Prec_gt_0 prec} {Hm : Prec_lt_emax prec emax} (s : state (FloatNum prec emax)) :
  (2 <= prec)%Z -> wf s -> wf_pending s -> ready s -> Forall (eq (f_zero : binary_float prec emax)) (a_data (probabilities s)) ->
  eps_ok (epsilon s) -> depression_constant s = (Bone : pyfloat) -> ~ epsilon_survives prec emax (epsilon s) ->
  exists h s1 s2, awf h /\ iterate_act s h = Ok s1 /\ iterate_act (into_jit s) (jit_array h) = Ok s2 /\
    forall i b, halted s1 i = Some b -> halted s2 i = Some (negb b).
Proof.
  intros H2 W P Rd Z He Hd NS.
  destruct (C78_partial_other_epsilon prec emax (epsilon s) (depression_constant s) H2 He) as (eps' & dep' & (He' & _) & ET & ED & EI & Run).
  assert (dep' = (Bone : pyfloat)) as -> by (rewrite EI by (rewrite Hd; now apply one_depression); exact Hd).
  specialize (Run s). set (s' := with_settings s (eps' : scl (FloatNum prec emax)) (Bone : pyfloat)) in *.
  destruct (eager_R prec emax H2 _ He) as [U1 _]. destruct (compiled_R prec emax H2 _ He) as [U2 _].
  set (T1 := eager_threshold prec emax (epsilon s)) in *. set (T2 := compiled_threshold prec emax (epsilon s)) in *.
  assert (NE : B2R T1 <> B2R T2) by exact NS.
  assert (Main : forall t : binary_float prec emax, funit t -> (0 < B2R t)%R -> Bltb T2 t = negb (Bltb T1 t) ->
    exists h s1 s2, awf h /\ iterate_act s h = Ok s1 /\ iterate_act (into_jit s) (jit_array h) = Ok s2 /\
      forall i b, halted s1 i = Some b -> halted s2 i = Some (negb b)).
  { intros t Ut Pt Ft. exists (a_full (N := FloatNum prec emax) (batch_shape s) t (a_dt (probabilities s))).
    destruct (first_step H2 s t W P Rd Z He Hd Ut Pt) as (s1 & E1 & F1).
    assert (W' : wf s') by (destruct W; now constructor).
    destruct (first_step H2 s' t W' P Rd Z He' eq_refl Ut Pt) as (s2 & E2 & F2).
    exists s1. destruct (Run [CIter (N := FloatNum prec emax) (a_full (N := FloatNum prec emax) (batch_shape s) t (a_dt (probabilities s)))] eq_refl eq_refl) as (R1 & _ & R3).
    destruct (Run [] eq_refl eq_refl) as (R4 & R5 & _). specialize (R5 (CIter (N := FloatNum prec emax) (a_full (N := FloatNum prec emax) (batch_shape s) t (a_dt (probabilities s))))).
    cbn [map] in R4. rewrite <- R4 in R5. cbn [jit_call move_call apply_call] in R5.
    unfold run in R3, R5. cbn [fold_left] in R3, R5. unfold after in R3. cbn [apply_call] in R3.
    change (batch_shape s') with (batch_shape s) in E2. change (a_dt (probabilities s')) with (a_dt (probabilities s)) in E2.
    rewrite E2 in R5, R3. cbn [outcome_map] in R5.
    eexists. split; [apply twf_full|]. split; [exact E1|]. split; [exact R5|].
    intros i b Hb. assert (X := F1 i b Hb). subst b. unfold halted in *. rewrite R3.
    assert (Y : exists b2, nth_error (data (halted_batches s2)) i = Some b2).
    { assert (A : awf (a_full (N := FloatNum prec emax) (batch_shape s) t (a_dt (probabilities s)))) by apply twf_full.
      destruct (iterate_committed _ _ _ W P A E1) as (C1 & W1 & _). destruct (iterate_committed _ _ _ W' P A E2) as (C2 & W2 & _).
      apply halted_get_inv in Hb as (p1 & Hb & _). 
      destruct (nth_error (a_data (probabilities s2)) i) as [p2|] eqn:E; [rewrite (halted_get s2 i p2 E); eauto|].
      apply nth_error_None in E. assert (i < List.length (a_data (probabilities s1))) by (apply nth_error_Some; congruence).
      pose proof (wf_p _ W1) as Y1. pose proof (wf_p _ W2) as Y2. pose proof (cm_p_sig _ _ _ C1) as S1. pose proof (cm_p_sig _ _ _ C2) as S2.
      apply (f_equal fst) in S1, S2. cbn [fst sig] in S1, S2. change (probabilities s') with (probabilities s) in S2.
      unfold awf, twf, a_shape, a_data in *. rewrite S1 in Y1. rewrite S2 in Y2. lia. }
    destruct Y as [b2 Y]. rewrite Y. f_equal. rewrite (F2 i b2 Y). change (threshold s) with T1. rewrite <- Ft.
    apply (ltb_same prec emax (eager_threshold prec emax eps') T2); [|apply U2|exact ET].
    now destruct (eager_R prec emax H2 _ He') as [[Fi _] _]. }
  destruct (Rtotal_order (B2R T1) (B2R T2)) as [L|[L|L]]; [|contradiction|].
  - apply (Main T2); auto; [destruct U1; lra|]. rewrite (proj2 (ltb_R prec emax T1 T2 (proj1 U1) (proj1 U2)) L).
    apply (ltb_R_false prec emax); try apply U2. lra.
  - apply (Main T1); auto; [destruct U2; lra|]. rewrite (proj2 (ltb_R_false prec emax T1 T1 (proj1 U1) (proj1 U1)) ltac:(lra)).
    apply (ltb_R prec emax); [apply U2|apply U1|lra].
Qed.
Print Assumptions C78_refuted.

(** ** C78: the whole of execute_act *)
Section Act.
  Context {prec emax : Z} {Hp : Prec_gt_0 prec} {Hm : Prec_lt_emax prec emax}.
  Notation F := (FloatNum prec emax).
  Notation J := (JitNum prec emax).
  Notation R := (fun x y : binary_float prec emax => y = x).
  Lemma ret_rel (e d : pyfloat) (r : ret F) : returns_settings (N := F) e d r ->
    rret (N := F) (M := J) R e (trace_scalar e) d (trace_scalar d) r (jit_ret r).
  Proof.
    destruct r as [is|t]; cbn [returns_settings rret jit_ret move_ret]; [|intros _; now apply (rt_move (N := F) (M := J) (fun x => x))].
    induction 1 as [|i is Hi _ IH]; cbn; constructor; auto. destruct i; cbn; auto.
    - now apply into_jit_rel.
    - now apply (rt_move (N := F) (M := J) (fun x => x)).
  Qed.
End Act.
(** [execute_act] gives the same result whether its iterations are compiled (as they are) or not, if the
    controller that [make_controller] returns has settings that survive. *)
Theorem C78_partial_execute_act (prec emax : Z) {Hp : Prec_gt_0 prec} {Hm : Prec_lt_emax prec emax}
  (l : layer (FloatNum prec emax)) (l' : layer (JitNum prec emax)) init (dep : pyfloat) (e d : pyfloat) max_iterations check :
  (2 <= prec)%Z -> eps_ok e -> epsilon_survives prec emax e -> depression_survives prec emax d ->
  (forall c, l_make_controller l init (dep : scl (FloatNum prec emax)) = Ok (MCtrl c) ->
     epsilon c = (e : scl (FloatNum prec emax)) /\ depression_constant c = (d : scl (FloatNum prec emax))) ->
  same_code e d l l' ->
  execute_act_compiled l l' init dep max_iterations check =
  outcome_map (fun p => (into_jit (fst p), jit_tree (snd p))) (execute_act l init (dep : scl (FloatNum prec emax)) max_iterations check).
Proof.
  intros H2 He S D Mk SC. assert (T := fun x => survives_ltb H2 _ x He S).
  unfold execute_act_compiled, execute_act, wrapped_make_controller.
  destruct (l_make_controller l init (dep : scl (FloatNum prec emax))) as [m|x] eqn:Em; cbn [bind outcome_map]; [|reflexivity].
  destruct (if check then validate_made m else Ok tt) as [[]|x]; cbn [bind outcome_map]; [|reflexivity].
  destruct m as [c|t]; [|reflexivity]. destruct (Mk c eq_refl) as [Ec Dc].
  destruct (l_setup_lazy l c init) as [[]|x]; cbn [bind outcome_map]; [|reflexivity].
  assert (W : rr (rcarry (N := FloatNum prec emax) (M := JitNum prec emax) (fun x y : binary_float prec emax => y = x) e (trace_scalar e) d (trace_scalar d))
    (while_loop (run_layer_adapter check l) (c, init, mkM 0 max_iterations))
    (while_loop (run_layer_adapter check l') (into_jit c, jit_tree init, mkM 0 max_iterations))).
  { apply (jit_while prec emax e d (trace_scalar e) (trace_scalar d) T).
    - intros c0 c' u u' Rc Ru. assert (E0 := rs_eps _ _ _ _ _ _ _ Rc). assert (D0 := rs_dep _ _ _ _ _ _ _ Rc).
      apply rel_into_jit in Rc. apply (rt_move (N := FloatNum prec emax) (M := JitNum prec emax) (fun x => x)) in Ru.
      assert (u' = jit_tree u) as -> by exact Ru. subst c'. destruct (SC c0 u E0 D0) as [X Y]. rewrite X. destruct (l_run_iteration l c0 u) as [r|x]; cbn; [|reflexivity].
      now apply ret_rel, Y.
    - split; [|reflexivity]. split; [now apply into_jit_rel|now apply (rt_move (N := FloatNum prec emax) (M := JitNum prec emax) (fun x => x))]. }
  destruct (while_loop (run_layer_adapter check l) _) as [[[c1 u1] m1]|x1], (while_loop (run_layer_adapter check l') _) as [[[c2 u2] m2]|x2];
    cbn [bind outcome_map rr] in *; try contradiction; [|congruence].
  destruct W as [[A B] _]. cbn [fst snd] in *. apply rel_into_jit in A.
  apply (rt_move (N := FloatNum prec emax) (M := JitNum prec emax) (fun x => x)) in B. now subst.
Qed.
Print Assumptions C78_partial_execute_act.
(** Layers that cache updates computed from the user state, commit, and go on with a new user state
    satisfy the hypothesis, if their functions do to traced arrays what they do to arrays. *)
Lemma simple_same_code (prec emax : Z) {Hp : Prec_gt_0 prec} {Hm : Prec_lt_emax prec emax} c0 c0' next next' upd upd' halt halt' lazy lazy' (e d : pyfloat) :
  (2 <= prec)%Z -> eps_ok e -> epsilon_survives prec emax e -> depression_survives prec emax d ->
  (forall u, next' (jit_tree u) = jit_tree (next u)) ->
  (forall u, upd' (jit_tree u) = map (fun kv => (fst kv, jit_tree (snd kv))) (upd u)) ->
  (forall u, halt' (jit_tree u) = jit_array (halt u)) ->
  same_code e d (simple_layer (N := FloatNum prec emax) c0 next upd halt lazy) (simple_layer (N := JitNum prec emax) c0' next' upd' halt' lazy').
Proof.
  intros H2 He S D Hn Hu Hh c u Ec Dc. assert (T := fun x => survives_ltb H2 _ x He S).
  cbn [simple_layer l_run_iteration].
  assert (EQ : simple_calls (N := JitNum prec emax) upd' halt' (jit_tree u) = map jit_call (simple_calls (N := FloatNum prec emax) upd halt u)).
  { unfold simple_calls. rewrite map_app, Hu, Hh. cbn [map]. f_equal. rewrite !map_map. reflexivity. }
  rewrite EQ. assert (Q : forall cs c c', rs (N := FloatNum prec emax) (M := JitNum prec emax) (fun x y : binary_float prec emax => y = x) e (trace_scalar e) d (trace_scalar d) c c' ->
    rr (rs (N := FloatNum prec emax) (M := JitNum prec emax) (fun x y : binary_float prec emax => y = x) e (trace_scalar e) d (trace_scalar d))
      (strictly c cs) (strictly c' (map jit_call cs))).
  { induction cs as [|x cs IH]; intros a b Rab; cbn [strictly map]; [exact Rab|].
    assert (X := jit_call_rr prec emax e d (trace_scalar e) (trace_scalar d) T D a b x (jit_call x) Rab).
    specialize (X ltac:(now apply (rcall_move (N := FloatNum prec emax) (M := JitNum prec emax) (fun x => x)))).
    destruct (apply_call a x) as [a1|x1], (apply_call b (jit_call x)) as [b1|x2]; cbn [rr] in *; try contradiction; auto. }
  specialize (Q (simple_calls (N := FloatNum prec emax) upd halt u) c (into_jit c) (into_jit_rel c e d Ec Dc)).
  destruct (strictly c _) as [c1|x1] eqn:E1, (strictly (into_jit c) _) as [c2|x2]; cbn [rr outcome_map] in *; try contradiction.
  - split.
    + rewrite (rel_into_jit _ _ _ _ Q). rewrite Hn. reflexivity.
    + intros r [= <-]. cbn. constructor; [|constructor; [exact I|constructor]]. split; [apply (rs_eps _ _ _ _ _ _ _ Q)|apply (rs_dep _ _ _ _ _ _ _ Q)].
  - split; [congruence|]. discriminate.
Qed.

(** ** C78: cases *)
Notation J32 := (JitNum 24 128).
(** layers over the controller [ctl32 eps]: the user state is the array of halting values *)
Definition lay32 (eps : pyfloat) : layer N32 :=
  simple_layer (N := N32) (ctl32 eps) (fun u => u) (fun u => [("x", u)]) (fun u => match u with Leaf a => a | _ => arr32 [2] [] end) (fun _ _ => Ok tt).
Definition lay32' (eps : pyfloat) : layer J32 :=
  simple_layer (N := J32) (into_jit (ctl32 eps)) (fun u => u) (fun u => [("x", u)]) (fun u => match u with Leaf a => a | _ => jit_array (arr32 [2] []) end) (fun _ _ => Ok tt).
Definition bitsJ (a : array J32) : list SpecFloat.spec_float := map (B2SF (prec := 24) (emax := 128)) (a_data a).
Lemma py_one : py_div 1 1 = Bone.
Proof. apply B2SF_inj. vm_compute. reflexivity. Qed.
Lemma survives_by_computation prec emax {Hp : Prec_gt_0 prec} {Hm : Prec_lt_emax prec emax} eps :
  B2SF (eager_threshold prec emax eps) = B2SF (compiled_threshold prec emax eps) -> epsilon_survives prec emax eps.
Proof. intros H. unfold epsilon_survives. now rewrite (B2SF_inj _ _ _ _ H). Qed.

(** epsilon = 0.1 survives: the layer runs three iterations in both. *)
Example C78_case : eps_ok (py_div 1 10) /\ epsilon_survives 24 128 (py_div 1 10) /\ depression_survives 24 128 (py_div 1 1) /\
  same_code (py_div 1 10) (py_div 1 1) (lay32 (py_div 1 10)) (lay32' (py_div 1 10)) /\
  let init := Leaf (arr32 [2] [f32 1 3; f32 1 2]) in
  match execute_act (lay32 (py_div 1 10)) init (py_div 1 1 : scl N32) 10 true, execute_act_compiled (lay32 (py_div 1 10)) (lay32' (py_div 1 10)) init (py_div 1 1) 10 true with
  | Ok (c, _), Ok (c', _) => bits (iterations c) = [B2SF (f32 3 1); B2SF (f32 2 1)] /\ bitsJ (iterations c') = [B2SF (f32 3 1); B2SF (f32 2 1)] /\
      bits (residuals c) = bitsJ (residuals c')
  | _, _ => False
  end.
Proof.
  split; [apply unit_by_computation; vm_compute; reflexivity|]. split; [apply survives_by_computation; vm_compute; reflexivity|].
  split; [apply single_depression|]. split.
  - apply simple_same_code; [lia|apply unit_by_computation; vm_compute; reflexivity|apply survives_by_computation; vm_compute; reflexivity|apply single_depression| | |];
      try (intros u; reflexivity). intros [a|k cs]; reflexivity.
  - vm_compute. repeat split.
Qed.
(** epsilon = 0.09 does not: with the halting value 0.91 a Python loop runs two iterations, [execute_act]
    only one. *)
Example C78_refuted_case : let s := run (ctl32 (py_div 9 100)) [CCache (N := N32) "x" (Leaf (arr32 [2] [f32 1 1; f32 2 1]))] in
  wf s /\ wf_pending s /\ ready s /\ Forall (eq (f_zero : binary_float 24 128)) (a_data (probabilities s)) /\
  eps_ok (epsilon s) /\ depression_constant s = (Bone : pyfloat) /\ ~ epsilon_survives 24 128 (epsilon s) /\
  let init := Leaf (arr32 [2] [f32 91 100; f32 91 100]) in
  match execute_act (lay32 (py_div 9 100)) init (py_div 1 1 : scl N32) 10 true, execute_act_compiled (lay32 (py_div 9 100)) (lay32' (py_div 9 100)) init (py_div 1 1) 10 true with
  | Ok (c, _), Ok (c', _) => bits (iterations c) = [B2SF (f32 2 1); B2SF (f32 2 1)] /\ bitsJ (iterations c') = [B2SF (f32 1 1); B2SF (f32 1 1)]
  | _, _ => False
  end.
Proof.
  assert (Se : eps_sane (N := N32) (py_div 9 100)) by (split; vm_compute; reflexivity).
  destruct (ctl32_ok _ Se) as (W & Fr & P). intros s.
  destruct (run_wf (ctl32 (py_div 9 100)) [CCache (N := N32) "x" (Leaf (arr32 [2] [f32 1 1; f32 2 1]))] W P ltac:(repeat constructor)) as [W' P'].
  split; [exact W'|]. split; [exact P'|]. split; [|split; [|split; [|split; [|split]]]].
  - apply (iterate_ok_iff s (arr32 [2] [f32 1 2; f32 1 2]) W' P' ltac:(reflexivity)).
    assert (E : is_ok (iterate_act s (arr32 [2] [f32 1 2; f32 1 2])) = true) by (vm_compute; reflexivity).
    destruct (iterate_act s (arr32 [2] [f32 1 2; f32 1 2])) as [s1|x]; [eauto|discriminate].
  - repeat constructor.
  - apply unit_by_computation. vm_compute. reflexivity.
  - exact py_one.
  - intros S. assert (L : Bltb (compiled_threshold 24 128 (py_div 9 100)) (eager_threshold 24 128 (py_div 9 100)) = true) by (vm_compute; reflexivity).
    apply (ltb_R 24 128) in L; [|vm_compute; reflexivity|vm_compute; reflexivity]. unfold epsilon_survives in S.
    change (epsilon s) with (py_div 9 100) in S. lra.
  - vm_compute. repeat split.
Qed.

(** ** C02 for compiled code *)
Theorem C02_compiled_probability (prec emax : Z) {Hp : Prec_gt_0 prec} {Hm : Prec_lt_emax prec emax}
  (s : state (FloatNum prec emax)) cs :
  (2 <= prec)%Z -> wf s -> wf_pending s -> Forall call_wf cs -> Forall no_nan cs ->
  eps_ok (epsilon s) -> fnonneg (f_conv prec emax (trace_scalar (depression_constant s)) : binary_float prec emax) -> probabilities_ok s ->
  let compiled := run (into_jit s) (map jit_call cs) in
  (** always a finite number between zero and one; and exactly 1.0 right after the iteration in which the element halted *)
  (forall i p, (probabilities compiled).[i] = Some p -> funit (p : binary_float prec emax)) /\
  (forall h s' i p p', awf h -> Forall not_nan (a_data h) -> iterate_act compiled (jit_array h) = Ok s' ->
     (probabilities compiled).[i] = Some p -> (probabilities s').[i] = Some p' ->
     (B2R (p : binary_float prec emax) <= B2R (p' : binary_float prec emax))%R /\
     (halted s' i = Some true -> p' = (Bone : binary_float prec emax))).
Proof.
  intros H2 W P Fc Fn He Hd Hs compiled.
  destruct (C78_partial_other_epsilon prec emax (epsilon s) (depression_constant s) H2 He) as (eps' & dep' & (He' & _) & _ & ED & _ & Run).
  specialize (Run s). set (s0 := with_settings s (eps' : scl (FloatNum prec emax)) dep') in *.
  assert (W0 : wf s0) by (destruct W; now constructor).
  assert (D0 : dep_ok prec emax (depression_constant s0)) by (unfold dep_ok; cbn; rewrite ED; exact Hd).
  destruct (C02_float_probability prec emax s0 cs H2 W0 P Fc Fn He' D0 Hs) as [A B].
  destruct (Run cs eq_refl eq_refl) as (E & Ec & _). fold compiled in E.
  assert (M : forall (x : state (FloatNum prec emax)) i, (probabilities (with_settings (into_jit x) (trace_scalar (epsilon s) : scl (JitNum prec emax)) (trace_scalar (depression_constant s)))).[i] = (probabilities x).[i]).
  { intros x i. unfold with_settings, into_jit, move, move_array, a_data. cbn. now rewrite map_id. }
  split.
  - intros i p. rewrite E. intros X. rewrite M in X. now apply A in X.
  - intros h s' i p p' Hh Hn Hi X X'. specialize (Ec (CIter (N := FloatNum prec emax) h)). cbn [jit_call move_call apply_call] in Ec.
    rewrite E in Hi. unfold jit_array in Hi. 
    destruct (iterate_act (run s0 cs) h) as [s1|x1] eqn:E1.
    2:{ exfalso. enough (Ok s' = Err x1) by discriminate. rewrite <- Hi. exact Ec. }
    assert (Es : s' = with_settings (into_jit s1) (trace_scalar (epsilon s) : scl (JitNum prec emax)) (trace_scalar (depression_constant s))).
    { enough (Y : Ok s' = outcome_map (fun x => with_settings (into_jit x) (trace_scalar (epsilon s) : scl (JitNum prec emax)) (trace_scalar (depression_constant s))) (Ok s1)) by now injection Y.
      rewrite <- Hi. exact Ec. }
    rewrite E in X. rewrite M in X. rewrite Es in X'. rewrite M in X'.
    destruct (B h s1 i p p' Hh Hn E1 X X') as [B1 B2]. split; [exact B1|]. intros Ht. apply B2.
    destruct (Run (cs ++ [CIter (N := FloatNum prec emax) h]) eq_refl eq_refl) as (_ & _ & Hb).
    unfold run in Hb. rewrite fold_left_app in Hb. cbn [fold_left] in Hb. fold (run s0 cs) in Hb. unfold after in Hb. cbn [apply_call] in Hb.
    rewrite E1 in Hb. unfold halted. rewrite <- Hb, <- Es. exact Ht.
Qed.
Print Assumptions C02_compiled_probability.
Example C02_compiled_case : let s := ctl32 (py_div 9 100) in
  wf s /\ wf_pending s /\ Forall call_wf calls32 /\ Forall no_nan calls32 /\ eps_ok (epsilon s) /\
  fnonneg (f_conv 24 128 (trace_scalar (depression_constant s)) : binary_float 24 128) /\ probabilities_ok s /\
  bitsJ (probabilities (run (into_jit s) (map jit_call calls32))) = [B2SF (f32 1 1); B2SF (f32 1 1)].
Proof.
  assert (Se : eps_sane (N := N32) (py_div 9 100)) by (split; vm_compute; reflexivity).
  destruct (ctl32_ok _ Se) as (W & F & P). split; [exact W|]. split; [exact P|].
  split; [repeat constructor|]. split; [repeat constructor; vm_compute; reflexivity|].
  split; [apply unit_by_computation; vm_compute; reflexivity|].
  split; [split; [vm_compute; reflexivity|apply (leb_real (f_zero (prec := 24) (emax := 128))); vm_compute; reflexivity]|].
  split; [now apply fresh_unit|]. vm_compute. reflexivity.
Qed.
