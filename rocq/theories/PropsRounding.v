(** * C65-C69 in IEEE-754 arithmetic: monotone halting, weights, accumulators, halting decisions and
    residuals, with explicit rounding errors.

    [bpow radix2 (- prec)] is the unit roundoff 2^-prec. Vocabulary: FloatSpec.v, ScalarSpec.v (the
    scalar program of an element, see C64), ElementSpec.v, History.v. *)
From Coq Require Import ZArith Reals Lia Lra Psatz.
From Flocq Require Import Core BinarySingleNaN.
From Verif Require Import Base PyTree Tensor Num FloatNum FloatSpec Utils States Controller Builder Wf Spec History ElementSpec ScalarSpec BuilderSpec.
From Verif Require Import BaseFacts ControllerFacts IterateFacts HistoryFacts AgreeFacts GravesFacts ExactFacts ExactFacts2 ElementFacts BuilderFacts
  ScalarFacts ScriptFacts FloatFacts FloatFacts2 FloatFacts3 FloatFacts4 FloatFacts5 Samples.
From Verif Require Import PropsController PropsScalar PropsFloat.
Close Scope R_scope. Close Scope Z_scope. Open Scope string_scope. Open Scope list_scope. Open Scope nat_scope.

Section Formats.
  Context {prec emax : Z} {Hp : Prec_gt_0 prec} {Hm : Prec_lt_emax prec emax}.
  Notation N := (FloatNum prec emax).
  Notation bf := (binary_float prec emax).
  Lemma halted_is_over (s : state N) cs i (p r n : val N) : wf s -> fresh s -> Forall call_wf cs ->
    element (run s cs) i p r n -> halted (run s cs) i = Some (is_over (threshold s) (mkStats p r n)).
  Proof.
    intros W F C (Hpi & _). unfold halted. rewrite (halted_get _ _ _ Hpi). f_equal. unfold halted_at, is_over, threshold. cbn [cumulative].
    now rewrite (sf_eps _ _ (run_frame s cs W (Samples.fresh_wf_pending _ F) C)).
  Qed.
  Lemma values_forall (ok : val N -> Prop) i (s : state N) cs : Forall (halting_values ok) cs -> Forall ok (values_of i (returned s cs)).
  Proof.
    intros G. apply (returned_all _ s) in G. unfold values_of. apply Forall_flat_map. now apply values_ok.
  Qed.
End Formats.

(** ** C65 in floating point *)
Theorem C65_float (prec emax : Z) {Hp : Prec_gt_0 prec} {Hm : Prec_lt_emax prec emax}
  (s1 s2 : state (FloatNum prec emax)) cs1 cs2 i1 i2 p1 r1 n1 p2 r2 n2 :
  (2 <= prec)%Z ->
  wf s1 -> fresh s1 -> Forall call_wf cs1 -> Forall (fun c => c <> CReset) cs1 ->
  wf s2 -> fresh s2 -> Forall call_wf cs2 -> Forall (fun c => c <> CReset) cs2 ->
  eps_ok (epsilon s1) -> eps_ok (epsilon s2) -> (B2R (epsilon s1 : pyfloat) <= B2R (epsilon s2 : pyfloat))%R ->
  dep_ok prec emax (depression_constant s1) -> dep_ok prec emax (depression_constant s2) ->
  (B2R (depression_constant s1 : pyfloat) <= B2R (depression_constant s2 : pyfloat))%R ->
  (** the IEEE comparison, which also says that none of the values is NaN *)
  Forall2 (fun v w : val (FloatNum prec emax) => Bleb (v : binary_float prec emax) w = true)
    (values_of i1 (returned s1 cs1)) (values_of i2 (returned s2 cs2)) ->
  element (run s1 cs1) i1 p1 r1 n1 -> element (run s2 cs2) i2 p2 r2 n2 ->
  (B2R (p1 : binary_float prec emax) <= B2R (p2 : binary_float prec emax))%R /\
  (B2R (n2 : binary_float prec emax) <= B2R (n1 : binary_float prec emax))%R /\
  (halted (run s1 cs1) i1 = Some true -> halted (run s2 cs2) i2 = Some true).
Proof.
  intros H2 W1 F1 C1 R1 W2 F2 C2 R2 E1 E2 LE D1 D2 LD V El1 El2.
  destruct (C64_every_element_runs_the_scalar_program s1 cs1 W1 F1 C1) as [S1 _]. specialize (S1 _ _ _ _ El1).
  destruct (C64_every_element_runs_the_scalar_program s2 cs2 W2 F2 C2) as [S2 _]. specialize (S2 _ _ _ _ El2).
  rewrite (stats_program_values i1 _ (returned_all _ s1 cs1 R1)) in S1.
  rewrite (stats_program_values i2 _ (returned_all _ s2 cs2 R2)) in S2.
  assert (B : fbehind prec emax (mkStats p1 r1 n1) (mkStats p2 r2 n2)).
  { rewrite S1, S2. exact (fbehind_run prec emax H2 s1 s2 E1 E2 D1 D2 LE LD _ _ _ _ (fbehind0 prec emax H2) V). }
  split; [exact (fb_le _ _ _ _ B)|]. split.
  - destruct (fb_n _ _ _ _ B) as (a & b & [_ Ca] & [_ Cb] & Lab & _). cbn [steps] in Ca, Cb. rewrite Ca, Cb. apply IZR_le. lia.
  - rewrite (halted_is_over s1 cs1 i1 _ _ _ W1 F1 C1 El1), (halted_is_over s2 cs2 i2 _ _ _ W2 F2 C2 El2).
    intros H. apply Some_inj in H. f_equal. exact (fbehind_over prec emax H2 s1 s2 E1 E2 LE _ _ B H).
Qed.
Print Assumptions C65_float.

(** ** C66: the weights of an element add up to its probability, which is 1.0 once it is halted *)
Theorem C66_weights_add_up (prec emax : Z) {Hp : Prec_gt_0 prec} {Hm : Prec_lt_emax prec emax}
  (s : state (FloatNum prec emax)) cs i p r n :
  (2 <= prec)%Z -> wf s -> fresh s -> Forall call_wf cs -> Forall (fun c => c <> CReset) cs -> Forall no_nan cs ->
  eps_ok (epsilon s) -> dep_ok prec emax (depression_constant s) ->
  element (run s cs) i p r n ->
  let ws := ScalarSpec.weights (v_of_scl (FloatNum prec emax) (s_one_sub (FloatNum prec emax) (epsilon s)))
                    (v_of_scl (FloatNum prec emax) (depression_constant s)) stats0 (values_of i (returned s cs)) in
  Forall (fun w : val (FloatNum prec emax) => fnonneg (w : binary_float prec emax)) ws /\
  (Rabs (Rsum (map (fun w : val (FloatNum prec emax) => B2R (w : binary_float prec emax)) ws) - B2R (p : binary_float prec emax))
    <= INR (length ws) * bpow radix2 (- prec))%R /\
  (halted (run s cs) i = Some true -> p = (Bone : binary_float prec emax)).
Proof.
  intros H2 W F C Nr G He Hd El ws.
  destruct (C64_every_element_runs_the_scalar_program s cs W F C) as [S _]. specialize (S _ _ _ _ El).
  rewrite (stats_program_values i _ (returned_all _ s cs Nr)) in S.
  assert (Nv := values_forall not_nan i s cs G).
  pose proof (sane0 prec emax H2 s He) as S0.
  destruct (weights_sum prec emax H2 s He Hd _ stats0 S0 Nv) as [A B].
  pose proof (sane_run prec emax H2 s He Hd _ stats0 S0 Nv) as Sn.
  fold (threshold s) in S, ws. split; [exact A|]. split.
  - change p with (cumulative (mkStats p r n)) at 1. rewrite S. rewrite <- (Rplus_0_l (Rsum _)). exact B.
  - rewrite (halted_is_over s cs i _ _ _ W F C El). intros H. apply Some_inj in H.
    assert (Sn' : sane prec emax s (mkStats p r n)) by (rewrite S; exact Sn). exact (sn_over _ _ _ _ Sn' H).
Qed.
Print Assumptions C66_weights_add_up.

(** ** C67: rounding error of the accumulators *)
(** [xs] lists the weight and the update of every step an entry took part in. *)
Theorem C67_accumulator_error (prec emax : Z) {Hp : Prec_gt_0 prec} {Hm : Prec_lt_emax prec emax}
  (s : state (FloatNum prec emax)) cs :
  (2 <= prec)%Z -> wf s -> fresh s -> Forall call_wf cs -> Forall (fun c => c <> CReset) cs -> Forall no_nan cs ->
  Forall (update_values (fun u : val (FloatNum prec emax) => is_finite (u : binary_float prec emax) = true)) cs ->
  eps_ok (epsilon s) -> dep_ok prec emax (depression_constant s) ->
  forall k t d, dget k (accumulators (run s cs)) = Some t -> dget k (defaults s) = Some d ->
  forall l a dl, nth_error (leaves t) l = Some a -> nth_error (leaves d) l = Some dl ->
  forall Rs, a_shape a = batch_shape s ++ Rs ->
  forall j av dv, a.[j] = Some av -> dl.[j] = Some dv -> is_finite (dv : binary_float prec emax) = true ->
  exists es, value_program (j / size Rs) k l j (returned s cs) (map Some es) /\
    let xs := ScalarSpec.shares (v_of_scl (FloatNum prec emax) (s_one_sub (FloatNum prec emax) (epsilon s)))
                     (v_of_scl (FloatNum prec emax) (depression_constant s)) stats0 es
              : list (binary_float prec emax * binary_float prec emax) in
    let tot := Rsum (map (fun x => Rabs (exact_share x)) xs) in
    ((magnitude_bound prec emax (length xs) (B2R (dv : binary_float prec emax)) tot < bpow radix2 emax)%R ->
     is_finite (av : binary_float prec emax) = true /\
     (Rabs (B2R (av : binary_float prec emax) - (B2R (dv : binary_float prec emax) + Rsum (map exact_share xs)))
       <= error_bound prec emax (length xs) (B2R (dv : binary_float prec emax)) tot)%R) /\
    (** if no update exceeds [M] in absolute value *)
    (forall M, (Rabs (B2R (dv : binary_float prec emax)) <= M)%R ->
       Forall (fun e : val (FloatNum prec emax) * val (FloatNum prec emax) => (Rabs (B2R (snd e : binary_float prec emax)) <= M)%R) es ->
       let m := length xs in let tot' := (M * (1 + INR m * bpow radix2 (- prec)))%R in
       (magnitude_bound prec emax m M tot' < bpow radix2 emax)%R ->
       is_finite (av : binary_float prec emax) = true /\
       (Rabs (B2R (av : binary_float prec emax) - (B2R (dv : binary_float prec emax) + Rsum (map exact_share xs)))
         <= error_bound prec emax m M tot')%R).
Proof.
  intros H2 W F C Nr G Gu He Hd k t d Ht Hdf l a dl Ha Hdl Rs Hsh j av dv Hav Hdv Fdv.
  destruct (C64_every_element_runs_the_scalar_program s cs W F C) as [_ A].
  destruct (A k t d Ht Hdf l a dl Ha Hdl Rs Hsh j av dv Hav Hdv) as (prog & Hprog & Eav).
  destruct (value_program_values _ _ _ _ _ _ (returned_all _ s cs Nr) Hprog) as (es & -> & Efst).
  exists es. split; [exact Hprog|]. fold (threshold s) in *. intros xs tot.
  rewrite (value_run_shares prec emax s dv es stats0 dv) in Eav. fold xs in Eav.
  assert (Nv : Forall (fun v : val (FloatNum prec emax) => is_nan (v : binary_float prec emax) = false) (map fst es))
    by (rewrite Efst; exact (values_forall not_nan _ s cs G)).
  pose proof (sane0 prec emax H2 s He) as S0.
  destruct (weights_sum prec emax H2 s He Hd _ stats0 S0 Nv) as [Wn Ws].
  pose proof (sn_unit _ _ _ _ (sane_run prec emax H2 s He Hd _ stats0 S0 Nv)) as [_ [_ P1]].
  rewrite <- shares_weights in Wn, Ws. fold xs in Wn, Ws. rewrite map_length in Ws.
  assert (Fu : Forall (fun u : val (FloatNum prec emax) => is_finite (u : binary_float prec emax) = true) (map snd es)).
  { apply (value_program_updates _ (j / size Rs) k l j (returned s cs) es); [|exact Hprog]. now apply returned_all. }
  assert (Fx : Forall (fun x : binary_float prec emax * binary_float prec emax => is_finite (fst x) = true /\ is_finite (snd x) = true) xs).
  { apply Forall_forall. intros x Hx. split.
    - rewrite Forall_forall in Wn. exact (proj1 (Wn (fst x) (in_map fst _ _ Hx))).
    - rewrite Forall_forall in Fu. apply Fu. exact (shares_incl prec emax s es stats0 x Hx). }
  pose proof (shares_error prec emax xs dv Fdv Fx) as Er. cbv zeta in Er. fold tot in Er. rewrite <- Eav in Er.
  split; [exact Er|]. intros M Md Mu m tot' Big.
  set (e := bpow radix2 (- prec)) in *. assert (Pe : (0 < e)%R) by apply bpow_gt_0.
  assert (Mpos : (0 <= M)%R) by (eapply Rle_trans; [apply Rabs_pos|exact Md]).
  assert (Lt : (tot <= tot')%R).
  { assert (L : (tot <= M * Rsum (map (fun w : val (FloatNum prec emax) => B2R (w : binary_float prec emax)) (map fst xs)))%R).
    { unfold tot. clear -Wn Mu Mpos. assert (Mx : Forall (fun x : binary_float prec emax * binary_float prec emax => (Rabs (B2R (snd x)) <= M)%R) xs).
      { apply Forall_forall. intros x Hx. pose proof (shares_incl prec emax s es stats0 x Hx) as I.
        apply in_map_iff in I as (y & Ey & Iy). rewrite Forall_forall in Mu.
        assert (X : forall z : binary_float prec emax, z = snd y -> (Rabs (B2R z) <= M)%R) by (intros z ->; exact (Mu y Iy)).
        apply X. now symmetry. }
      clearbody xs. induction xs as [|x xs IH]; cbn [map Rsum]; [lra|]. inversion Mx; subst. cbn [map] in Wn. inversion Wn as [|? ? Wx Wn']; subst.
      specialize (IH Wn' ltac:(assumption)). unfold exact_share at 1. rewrite Rabs_mult, (Rabs_pos_eq (B2R (fst x))) by apply Wx.
      rewrite Rmult_plus_distr_l, (Rmult_comm M). apply Rplus_le_compat; [|exact IH].
      apply Rmult_le_compat_l; [apply Wx|assumption]. }
    eapply Rle_trans; [exact L|]. apply Rmult_le_compat_l; [exact Mpos|].
    apply Rabs_le_inv in Ws. cbn [cumulative stats0 v_zero FloatNum] in Ws. change (B2R (f_zero : binary_float prec emax)) with 0%R in Ws.
    fold m in Ws. assert (K : forall A B C : R, (0 + A - B <= C -> B <= 1 -> A <= 1 + C)%R) by (clear; intros; lra).
    exact (K _ _ _ (proj2 Ws) P1). }
  assert (G1 : (1 <= (1 + e) ^ m)%R) by apply pow_ge_1. assert (G2 : (1 <= (1 + e) ^ S m)%R) by apply pow_ge_1.
  assert (Tp : (0 <= tot)%R) by apply Rsum_abs_nonneg.
  assert (X1 : (magnitude_bound prec emax m (B2R (dv : binary_float prec emax)) tot <= magnitude_bound prec emax m M tot')%R).
  { unfold magnitude_bound. cbv zeta. fold e. rewrite (Rabs_pos_eq M Mpos).
    apply Rplus_le_compat_r. apply Rplus_le_compat; apply Rmult_le_compat_l; lra. }
  assert (X2 : (error_bound prec emax m (B2R (dv : binary_float prec emax)) tot <= error_bound prec emax m M tot')%R).
  { unfold error_bound. cbv zeta. fold e. rewrite (Rabs_pos_eq M Mpos).
    apply Rplus_le_compat_r. apply Rplus_le_compat; apply Rmult_le_compat_l; lra. }
  destruct (Er (Rle_lt_trans _ _ _ X1 Big)) as [Y1 Y2]. split; [exact Y1|]. eapply Rle_trans; [exact Y2|exact X2].
Qed.
Print Assumptions C67_accumulator_error.

(** ** C68: rounding changes the moment of halting only when the exact sum is close to the threshold *)
Theorem C68_halting_decision (prec emax : Z) {Hp : Prec_gt_0 prec} {Hm : Prec_lt_emax prec emax}
  (s : state (FloatNum prec emax)) cs i :
  (2 <= prec <= 53)%Z -> wf s -> fresh s -> Forall call_wf cs -> Forall (fun c => c <> CReset) cs ->
  Forall (halting_values (fun v : val (FloatNum prec emax) => is_finite (v : binary_float prec emax) = true)) cs ->
  eps_ok (epsilon s) -> dep_ok prec emax (depression_constant s) ->
  (B2R (f_of_py (depression_constant s : pyfloat) : binary_float prec emax) <= 1)%R ->
  i < size (batch_shape s) ->
  let vs := values_of i (returned s cs) in
  let exact := Rsum (map (fun v : val (FloatNum prec emax) => ideal_value prec emax (depression_constant s : pyfloat) (v : binary_float prec emax)) vs) in
  let slack := (INR (length vs + 1) * bpow radix2 (- prec))%R in
  ((exact + slack <= 1 - B2R (epsilon s : pyfloat))%R -> halted (run s cs) i = Some false) /\
  ((1 - B2R (epsilon s : pyfloat) + slack < exact)%R -> (lost_epsilon prec < B2R (epsilon s : pyfloat))%R ->
   halted (run s cs) i = Some true).
Proof.
  intros [H2 H53] W F C Nr G He Hd Hd1 Hi vs exact slack.
  assert (P := Samples.fresh_wf_pending _ F). destruct (run_wf s cs W P C) as [W' _]. pose proof (run_frame s cs W P C) as Fr.
  assert (exists p, (probabilities (run s cs)).[i] = Some p) as [p Hpi].
  { apply nth_error_lt. rewrite (wf_batch_len _ W'). pose proof (sf_p _ _ Fr) as X. unfold sig in X.
    injection X as X _. unfold batch_shape in *. congruence. }
  destruct (element_exists (run s cs) i p W' Hpi) as (r & n & El).
  destruct (C64_every_element_runs_the_scalar_program s cs W F C) as [S _]. specialize (S _ _ _ _ El).
  rewrite (stats_program_values i _ (returned_all _ s cs Nr)) in S. fold vs (threshold s) in S.
  rewrite (halted_is_over s cs i _ _ _ W F C El). rewrite S.
  assert (Fv := values_forall _ i s cs G). fold vs in Fv. cbv beta in Fv.
  pose proof (sane0 prec emax H2 s He) as S0. pose proof (threshold_near prec emax H2 s He H53) as Tn. apply Rabs_le_inv in Tn.
  assert (Sl : slack = (INR (length vs) * bpow radix2 (- prec) + bpow radix2 (- prec))%R).
  { unfold slack. rewrite plus_INR. cbn [INR]. ring. }
  split.
  - intros L. f_equal. apply (stays_below prec emax H2 s He Hd Hd1 vs stats0 S0 Fv).
    assert (L' : (0 + exact + INR (length vs) * bpow radix2 (- prec) <= B2R (threshold s : binary_float prec emax))%R) by lra. exact L'.
  - intros L Le. f_equal. destruct (is_over (threshold s) (stats_run (threshold s) (v_of_scl (FloatNum prec emax) (depression_constant s)) stats0 (map Some vs))) eqn:O; [reflexivity|exfalso].
    pose proof (threshold_below_one prec emax H2 s H53 He Le) as T1.
    pose proof (drift prec emax H2 s He Hd Hd1 vs T1 stats0 S0 Fv O) as Dr. apply Rabs_le_inv in Dr.
    pose proof (sn_unit _ _ _ _ (sane_run prec emax H2 s He Hd _ stats0 S0 (finite_ok prec emax vs Fv))) as U.
    assert (X : ~ (B2R (threshold s : binary_float prec emax) < B2R (cumulative (stats_run (threshold s) (v_of_scl (FloatNum prec emax) (depression_constant s)) stats0 (map Some vs)) : binary_float prec emax))%R).
    { intros X. apply (halted_R prec emax H2 s _ He U) in X. unfold is_over in O. pose proof (eq_trans (eq_sym X) O). discriminate. }
    assert (K : forall A B C D E F : R, (- C <= B - (0 + A) <= C -> ~ D < B -> E + (C + F) < A -> D <= E + F -> False)%R)
      by (clear; intros; lra).
    rewrite Sl in L. refine (K exact _ _ _ _ _ Dr X L _). lra.
Qed.
Print Assumptions C68_halting_decision.

(** ** C69 in floating point: after any history, with resets *)
Theorem C69_float (prec emax : Z) {Hp : Prec_gt_0 prec} {Hm : Prec_lt_emax prec emax}
  (s : state (FloatNum prec emax)) cs i p r n :
  (2 <= prec <= 53)%Z -> wf s -> fresh s -> Forall call_wf cs -> Forall no_nan cs ->
  eps_ok (epsilon s) -> (lost_epsilon prec < B2R (epsilon s : pyfloat))%R -> dep_ok prec emax (depression_constant s) ->
  element (run s cs) i p r n ->
  (halted (run s cs) i = Some true ->
     p = (Bone : binary_float prec emax) /\ funit (r : binary_float prec emax) /\
     (bpow radix2 (- prec) <= B2R (r : binary_float prec emax))%R /\
     (B2R (epsilon s : pyfloat) - 2 * bpow radix2 (- prec) <= B2R (r : binary_float prec emax))%R) /\
  (halted (run s cs) i = Some false -> B2R (r : binary_float prec emax) = 0%R).
Proof.
  intros [H2 H53] W F C G He Le Hd El. pose proof (threshold_below_one prec emax H2 s H53 He Le) as T1.
  destruct (C64_every_element_runs_the_scalar_program s cs W F C) as [S _]. specialize (S _ _ _ _ El). fold (threshold s) in S.
  assert (Q : fremainder prec emax s (mkStats p r n)).
  { rewrite S. apply (fremainder_run prec emax H2 s He Hd T1); [now apply (fremainder0 prec emax H2 s He)|].
    apply (stats_program_halting not_nan). now apply returned_all. }
  rewrite (halted_is_over s cs i _ _ _ W F C El). destruct Q as [Sn U O Rz]. split; intros H; apply Some_inj in H.
  - split; [exact (sn_over _ _ _ _ Sn H)|]. split; [exact U|]. specialize (O H). cbn [remainder] in O.
    pose proof (threshold_near prec emax H2 s He H53) as Tn. apply Rabs_le_inv in Tn.
    pose proof (threshold_unit prec emax H2 s He) as [_ [T0 _]].
    pose proof (rnd_error_unit prec emax H2 (1 - B2R (threshold s : binary_float prec emax))%R ltac:(lra)) as Er. apply Rabs_le_inv in Er.
    rewrite (gap_e prec) in Er. pose proof (bpow_gt_0 radix2 (- prec)) as Pe. split; [|lra].
    eapply Rle_trans; [|exact O]. apply rnd_ge_fmt; [exact Hp| |].
    + apply generic_format_bpow. unfold SpecFloat.fexp, SpecFloat.emin. unfold Prec_lt_emax in Hm. lia.
    + assert (Lp : (B2R (threshold s : binary_float prec emax) <= pred radix2 (SpecFloat.fexp prec emax) 1)%R).
      { apply pred_ge_gt; [now apply (FLT_exp_valid (SpecFloat.emin prec emax) prec)|apply generic_format_B2R|now apply format_1|exact T1]. }
      change 1%R with (bpow radix2 0) in Lp at 1. rewrite pred_bpow, (fexp_0 prec emax H2) in Lp.
      change (bpow radix2 0) with 1%R in Lp. lra.
  - exact (Rz H).
Qed.
Print Assumptions C69_float.

(** ** Cases: float32, epsilon 0.1, two elements, three iterations *)
Lemma real_of {prec emax : Z} (x : binary_float prec emax) m e : B2SF x = SpecFloat.S754_finite false m e -> B2R x = (IZR (Zpos m) * bpow radix2 e)%R.
Proof. intros E. rewrite <- SF2R_B2SF, E. reflexivity. Qed.
Lemma same_floats {prec emax : Z} (xs ys : list (binary_float prec emax)) : map B2SF xs = map B2SF ys -> xs = ys.
Proof.
  revert ys. induction xs as [|x xs IH]; intros [|y ys] H; try discriminate; [reflexivity|]. cbn [map] in H.
  injection H as H1 H2. f_equal; [now apply B2SF_inj|now apply IH].
Qed.
Definition tenth : state N32 := ctl32 (py_div 1 10).
Lemma tenth_sane : eps_sane (N := N32) (py_div 1 10).
Proof. split; vm_compute; reflexivity. Qed.
Lemma tenth_settings : eps_ok (epsilon tenth) /\ dep_ok 24 128 (depression_constant tenth) /\
  (B2R (f_of_py (depression_constant tenth : pyfloat) : binary_float 24 128) = 1)%R /\
  (/ 16 <= B2R (epsilon tenth : pyfloat) <= / 8)%R.
Proof.
  split; [apply unit_by_computation; vm_compute; reflexivity|].
  split; [split; [vm_compute; reflexivity|apply (leb_real (f_zero (prec := 24) (emax := 128))); vm_compute; reflexivity]|].
  split.
  - rewrite (real_of _ 8388608 (-23)) by (vm_compute; reflexivity). cbn. lra.
  - assert (A : B2R (py_div 1 16) = (/ 16)%R) by (rewrite (real_of _ 4503599627370496 (-56)) by (vm_compute; reflexivity); cbn; lra).
    assert (B : B2R (py_div 1 8) = (/ 8)%R) by (rewrite (real_of _ 4503599627370496 (-55)) by (vm_compute; reflexivity); cbn; lra).
    rewrite <- A, <- B. split; apply leb_real; vm_compute; reflexivity.
Qed.
Lemma tenth_large : (lost_epsilon 24 < B2R (epsilon tenth : pyfloat))%R.
Proof.
  destruct tenth_settings as (_ & _ & _ & L & _). apply Rlt_le_trans with (/ 16)%R; [|exact L].
  unfold lost_epsilon. change ((24 =? 53)%Z) with false. cbv iota. cbn. lra.
Qed.
(** in [more32] both elements get at least what they get in [calls32]; element 1 halts at once *)
Definition more32 : list (call N32) := step32 (f32 1 3) (f32 19 20) ++ step32 (f32 1 2) (f32 9 10) ++ step32 (f32 1 3) (f32 1 2).
Example C65_float_case : wf tenth /\ fresh tenth /\ Forall call_wf calls32 /\ Forall (fun c => c <> CReset) calls32 /\
  Forall call_wf more32 /\ Forall (fun c => c <> CReset) more32 /\
  Forall2 (fun v w : val N32 => Bleb (v : binary_float 24 128) w = true) (values_of 1 (returned tenth calls32)) (values_of 1 (returned tenth more32)) /\
  bits (iterations (run tenth calls32)) = [B2SF (f32 3 1); B2SF (f32 2 1)] /\
  bits (iterations (run tenth more32)) = [B2SF (f32 3 1); B2SF (f32 1 1)].
Proof.
  destruct (ctl32_ok _ tenth_sane) as (W & F & _). split; [exact W|]. split; [exact F|].
  split; [repeat constructor|]. split; [repeat constructor; discriminate|].
  split; [repeat constructor|]. split; [repeat constructor; discriminate|].
  split; [|split; vm_compute; reflexivity].
  assert (A : values_of 1 (returned tenth calls32) = [f32 1 10; f32 9 10; f32 1 2]) by (apply same_floats; vm_compute; reflexivity).
  assert (B : values_of 1 (returned tenth more32) = [f32 19 20; f32 9 10; f32 1 2]) by (apply same_floats; vm_compute; reflexivity).
  rewrite A, B. repeat constructor; vm_compute; reflexivity.
Qed.
(** the weights of element 0: twice fl(1/3), then the remainder *)
Example C66_case : wf tenth /\ fresh tenth /\ Forall call_wf calls32 /\ Forall (fun c => c <> CReset) calls32 /\ Forall no_nan calls32 /\
  halted (run tenth calls32) 0 = Some true /\
  map (B2SF (prec := 24) (emax := 128))
    (ScalarSpec.weights (N := N32) (threshold tenth) (v_of_scl N32 (depression_constant tenth)) stats0 (values_of 0 (returned tenth calls32))) =
  [B2SF (f32 1 3); B2SF (f32 1 3); SpecFloat.S754_finite false 11184810 (-25)].
Proof.
  destruct (ctl32_ok _ tenth_sane) as (W & F & _). split; [exact W|]. split; [exact F|].
  split; [repeat constructor|]. split; [repeat constructor; discriminate|]. split; [repeat constructor; vm_compute; reflexivity|].
  split; vm_compute; reflexivity.
Qed.
(** no overflow for updates up to 2 in absolute value *)
Example C67_case : Forall (update_values (fun u : val N32 => is_finite (u : binary_float 24 128) = true)) calls32 /\
  option_map (fun t => map bits (leaves t)) (dget "x" (accumulators (run tenth calls32))) =
    Some [[B2SF (f32 1 1); B2SF (f32 2 1)]] /\
  (magnitude_bound 24 128 3 2 (2 * (1 + INR 3 * bpow radix2 (- 24))) < bpow radix2 128)%R.
Proof.
  split; [repeat constructor; vm_compute; reflexivity|]. split; [vm_compute; reflexivity|].
  unfold magnitude_bound. cbv zeta. rewrite (Rabs_pos_eq 2) by lra. change (Z.opp 24) with (-24)%Z.
  assert (X : (0 < bpow radix2 (-24) <= 1)%R) by (split; [apply bpow_gt_0|change 1%R with (bpow radix2 0); apply bpow_le; lia]).
  assert (Y : (0 < bpow radix2 (SpecFloat.emin 24 128 - 1) <= 1)%R)
    by (split; [apply bpow_gt_0|change 1%R with (bpow radix2 0); apply bpow_le; vm_compute; discriminate]).
  apply Rlt_le_trans with (bpow radix2 10); [|apply bpow_le; lia]. change (bpow radix2 10) with (IZR 1024).
  revert X Y. generalize (bpow radix2 (-24)%Z) (bpow radix2 (SpecFloat.emin 24 128 - 1)). intros u h X Y.
  assert (P : forall k, (1 <= (1 + u) ^ k <= 2 ^ k)%R).
  { intros k. split; [apply pow_R1_Rle; lra|apply pow_incr; lra]. }
  pose proof (P 3) as P3. pose proof (P 4) as P4. change (2 ^ 3)%R with (2 * (2 * (2 * 1)))%R in P3. change (2 ^ 4)%R with (2 * (2 * (2 * (2 * 1))))%R in P4.
  change (INR 3) with (1 + 1 + 1)%R.
  assert (A : ((1 + u) ^ 4 * (2 * (1 + (1 + 1 + 1) * u)) <= 16 * 8)%R) by (apply Rmult_le_compat; lra).
  assert (B : ((1 + 1 + 1) * h * (1 + u) ^ 3 <= 3 * 8)%R) by (apply Rmult_le_compat; lra).
  revert A B P3 P4. generalize ((1 + u) ^ 4 * (2 * (1 + (1 + 1 + 1) * u)))%R ((1 + 1 + 1) * h * (1 + u) ^ 3)%R ((1 + u) ^ 3)%R. intros; lra.
Qed.
(** 1/2 + 1/4 is clearly below, 1/2 + 1/4 + 1/2 clearly above the threshold of 0.9 *)
Definition clear32 : list (call N32) := step32 (f32 1 2) (f32 0 1) ++ step32 (f32 1 4) (f32 0 1) ++ step32 (f32 1 2) (f32 0 1).
Definition exact32 (cs : list (call N32)) : R :=
  Rsum (map (fun v : val N32 => ideal_value 24 128 (depression_constant tenth : pyfloat) (v : binary_float 24 128)) (values_of 0 (returned tenth cs))).
Example C68_case : Forall (halting_values (fun v : val N32 => is_finite (v : binary_float 24 128) = true)) clear32 /\
  (exact32 (firstn 4 clear32) + INR (2 + 1) * bpow radix2 (- 24) <= 1 - B2R (epsilon tenth : pyfloat))%R /\
  (1 - B2R (epsilon tenth : pyfloat) + INR (3 + 1) * bpow radix2 (- 24) < exact32 clear32)%R /\
  halted (run tenth (firstn 4 clear32)) 0 = Some false /\ halted (run tenth clear32) 0 = Some true.
Proof.
  split; [repeat constructor; vm_compute; reflexivity|].
  assert (A : values_of 0 (returned tenth (firstn 4 clear32)) = [f32 1 2; f32 1 4]) by (apply same_floats; vm_compute; reflexivity).
  assert (B : values_of 0 (returned tenth clear32) = [f32 1 2; f32 1 4; f32 1 2]) by (apply same_floats; vm_compute; reflexivity).
  destruct tenth_settings as (_ & _ & D & L1 & L2).
  assert (H1 : B2R (f32 1 2 : binary_float 24 128) = (/ 2)%R) by (rewrite (real_of _ 8388608 (-24)) by (vm_compute; reflexivity); cbn; lra).
  assert (H2 : B2R (f32 1 4 : binary_float 24 128) = (/ 4)%R) by (rewrite (real_of _ 8388608 (-25)) by (vm_compute; reflexivity); cbn; lra).
  assert (I1 : ideal_value 24 128 (depression_constant tenth : pyfloat) (f32 1 2) = (/ 2)%R).
  { unfold ideal_value. rewrite D, H1, Rmax_right, Rmin_right by lra. lra. }
  assert (I2 : ideal_value 24 128 (depression_constant tenth : pyfloat) (f32 1 4) = (/ 4)%R).
  { unfold ideal_value. rewrite D, H2, Rmax_right, Rmin_right by lra. lra. }
  assert (Sm : (bpow radix2 (- 24) <= / 64)%R) by (change (/ 64)%R with (bpow radix2 (- 6)); apply bpow_le; lia).
  unfold exact32. rewrite A, B. cbn [map Rsum]. rewrite I1, I2. cbn [INR Nat.add].
  split; [lra|]. split; [lra|]. split; vm_compute; reflexivity.
Qed.
Example C69_float_case : (lost_epsilon 24 < B2R (epsilon tenth : pyfloat))%R /\ halted (run tenth calls32) 0 = Some true /\
  bits (residuals (run tenth calls32)) = [SpecFloat.S754_finite false 11184810 (-25); SpecFloat.S754_finite false 15099494 (-24)].
Proof. split; [exact tenth_large|]. split; vm_compute; reflexivity. Qed.
