(** * Proofs: compiled against eager execution *)
From Coq Require Import ZArith Reals Lia Lra Psatz.
From Flocq Require Import Core BinarySingleNaN Sterbenz.
From Verif Require Import Base PyTree Tensor Num FloatNum FloatSpec Utils States Controller Viewer Layers History Wf
  BaseFacts PyTreeFacts TensorFacts StateSpec StateFacts LayerFacts TraceSpec TraceFacts TraceFacts2 MoveFacts
  FloatFacts FloatFacts2 FloatFacts3 Jit JitSpec.
Close Scope R_scope. Close Scope Z_scope. Open Scope list_scope. Open Scope nat_scope.

(** ** Moving is being related *)
Section MoveRel.
  Context {N M : numsys} (f : val N -> val M).
  Notation R := (fun x y => y = f x).
  Lemma F2_fun {A B} (g : A -> B) l l' : Forall2 (fun x y => y = g x) l l' <-> l' = map g l.
  Proof.
    split; [induction 1; cbn; congruence|]. intros ->. induction l; cbn; auto.
  Qed.
  Lemma ra_move a b : ra R a b <-> b = move_array f a.
  Proof.
    unfold ra, rten, move_array. rewrite F2_fun. destruct a as [d [sh v]], b as [d' [sh' v']]. cbn. unfold tensor_map. cbn.
    split; [intros (-> & -> & ->); reflexivity|]. intros [= -> -> ->]. auto.
  Qed.
  Lemma rt_move t t' : ltree (ra R) t t' <-> t' = move_tree f t.
  Proof.
    unfold ltree, move_tree. split.
    - intros [E F]. apply tree_ext; [now rewrite structure_tmap|]. rewrite leaves_tmap. apply F2_fun.
      revert F. apply F2_impl. intros a b. apply ra_move.
    - intros ->. rewrite structure_tmap, leaves_tmap. split; [reflexivity|]. induction (leaves t); cbn; constructor; auto. now apply ra_move.
  Qed.
  Lemma rd_move d d' : ldict (ltree (ra R)) d d' <-> d' = move_dict f d.
  Proof.
    unfold ldict, move_dict. split.
    - induction 1 as [|[k t] [k' t'] d d' [E T] _ IH]; cbn; [reflexivity|]. cbn in E, T. apply rt_move in T. subst. reflexivity.
    - intros ->. induction d; cbn; constructor; auto. split; [reflexivity|]. now apply rt_move.
  Qed.
  Lemma rs_move g e d (s : state N) s' : rs R e (g e) d (g d) s s' <->
    epsilon s = e /\ depression_constant s = d /\ s' = move f g s.
  Proof.
    split.
    - intros []. repeat split; auto. destruct s'. cbn in *. unfold move.
      apply ra_move in rs_iterations, rs_residuals, rs_probabilities.
      apply rd_move in rs_defaults, rs_accumulators, rs_updates. congruence.
    - intros (He & Hd & ->). constructor; cbn; auto; try (now rewrite He); try (now rewrite Hd); try (now apply ra_move); now apply rd_move.
  Qed.
  Lemma rs_settings e e' d d' (s : state N) (s' : state M) : rs R e e' d d' s s' <->
    epsilon s = e /\ depression_constant s = d /\ s' = with_settings (move f (fun _ => e') s) e' d'.
  Proof.
    split.
    - intros []. repeat split; auto. destruct s'. cbn in *. unfold with_settings, move. cbn.
      apply ra_move in rs_iterations, rs_residuals, rs_probabilities.
      apply rd_move in rs_defaults, rs_accumulators, rs_updates. congruence.
    - intros (He & Hd & ->). constructor; cbn; auto; try (now apply ra_move); now apply rd_move.
  Qed.
  Lemma rcall_move c c' : rcall R c c' <-> c' = move_call f c.
  Proof.
    destruct c, c'; cbn; try (split; [contradiction|discriminate]); try tauto.
    - rewrite rt_move. split; [intros [-> ->]; reflexivity|intros [= -> ->]; auto].
    - rewrite ra_move. split; congruence.
  Qed.
  Lemma rr_outcome {A B} (g : A -> B) r r' : rr (fun a b => b = g a) r r' <-> r' = outcome_map g r.
  Proof. destruct r, r'; cbn; split; try congruence; try contradiction; auto. Qed.
End MoveRel.

(** ** Floating point numbers *)
Section Conv.
  Context (prec emax : Z) {Hp : Prec_gt_0 prec} {Hm : Prec_lt_emax prec emax}.
  Notation bf := (binary_float prec emax).
  Notation fexp := (SpecFloat.fexp prec emax).
  Notation rnd := (round radix2 fexp ZnearestE).
  Local Open Scope R_scope.

  Lemma of_py_conv (x : pyfloat) : (f_of_py x : bf) = f_conv prec emax x.
  Proof. destruct x; reflexivity. Qed.
  (** Conversion looks at the real number and the sign only. *)
  Lemma conv_ext {p1 e1 p2 e2} (x : binary_float p1 e1) (y : binary_float p2 e2) :
    is_finite x = true -> is_finite y = true -> B2R x = B2R y -> Bsign x = Bsign y ->
    f_conv prec emax x = f_conv prec emax y.
  Proof.
    intros Fx Fy E S.
    assert (Z0 : forall p e (s : bool) m k H, B2R (B754_finite s m k H : binary_float p e) <> 0).
    { intros p e s m k H. cbn. intros X. apply eq_0_F2R in X. destruct s; discriminate. }
    destruct x as [s|s| |s m k Hx], y as [s'|s'| |s' m' k' Hy]; cbn in Fx, Fy; try discriminate.
    - cbn in S. subst. reflexivity.
    - exfalso. symmetry in E. now apply Z0 in E.
    - exfalso. now apply Z0 in E.
    - cbn in S. subst s'. cbn [f_conv]. cbn [B2R] in E.
      pose proof (binary_normalize_correct prec emax Hp Hm mode_NE (cond_Zopp s (Zpos m)) k s) as X.
      pose proof (binary_normalize_correct prec emax Hp Hm mode_NE (cond_Zopp s (Zpos m')) k' s) as Y.
      rewrite <- E in Y. cbn [round_mode] in X, Y.
      destruct (Rlt_bool _ _).
      + destruct X as (X1 & X2 & X3), Y as (Y1 & Y2 & Y3). apply B2R_Bsign_inj; auto; congruence.
      + apply B2SF_inj. congruence.
  Qed.
End Conv.

(** Conversion to a larger format loses nothing. *)
Lemma conv_exact {p1 e1 p2 e2 : Z} {Hp1 : Prec_gt_0 p1} {Hp2 : Prec_gt_0 p2} {Hm2 : Prec_lt_emax p2 e2} (x : binary_float p1 e1) :
  (forall e, SpecFloat.fexp p2 e2 e <= SpecFloat.fexp p1 e1 e)%Z -> (e1 <= e2)%Z -> is_finite x = true ->
  is_finite (f_conv p2 e2 x) = true /\ B2R (f_conv p2 e2 x) = B2R x /\ Bsign (f_conv p2 e2 x) = Bsign x.
Proof.
  intros I Le F. destruct x as [s|s| |s m k Hx]; cbn in F; try discriminate; [repeat split; reflexivity|]. cbn [f_conv].
  pose proof (binary_normalize_correct p2 e2 _ _ mode_NE (cond_Zopp s (Zpos m)) k s) as X. cbn [round_mode] in X.
  set (x := B754_finite s m k Hx : binary_float p1 e1) in *.
  assert (E : F2R (Float radix2 (cond_Zopp s (Zpos m)) k) = B2R x) by reflexivity. rewrite E in X.
  assert (G : generic_format radix2 (SpecFloat.fexp p2 e2) (B2R x)).
  { apply (generic_inclusion_mag radix2 (SpecFloat.fexp p1 e1)); [|apply generic_format_B2R]. intros _. apply I. }
  rewrite (round_generic radix2 _ ZnearestE _ G) in X. rewrite Rlt_bool_true in X.
  - destruct X as (X1 & X2 & X3). repeat split; auto. rewrite X3. cbn [Bsign x].
    assert (NZ : B2R x <> 0%R). { cbn. intros Q. apply eq_0_F2R in Q. destruct s; discriminate. }
    destruct (Rcompare_spec (B2R x) 0) as [L|L|L]; [| |].
    + destruct s; [reflexivity|]. exfalso. cbn [x B2R] in L. pose proof (F2R_ge_0 radix2 (Float radix2 (Zpos m) k) ltac:(cbn; lia)). cbn in *. lra.
    + contradiction.
    + destruct s; [|reflexivity]. exfalso. cbn [x B2R] in L. pose proof (F2R_le_0 radix2 (Float radix2 (Zneg m) k) ltac:(cbn; lia)). cbn in *. lra.
  - eapply Rlt_le_trans; [exact (abs_B2R_lt_emax _ _ x)|]. now apply bpow_le.
Qed.
Lemma conv_self {p e : Z} {Hp : Prec_gt_0 p} {Hm : Prec_lt_emax p e} (x : binary_float p e) : f_conv p e x = x.
Proof.
  destruct (is_finite x) eqn:F.
  - destruct (conv_exact (p2 := p) (e2 := e) x ltac:(intros; lia) ltac:(lia) F) as (A & B & C). now apply B2R_Bsign_inj.
  - destruct x; cbn in F; try discriminate; reflexivity.
Qed.
(** Widening float32 to float64. *)
Section Widen.
  Local Open Scope R_scope.
  Definition widen (x : weak32) : pyfloat := f_conv 53 1024 x.
  Lemma widen_R (x : weak32) : is_finite x = true ->
    is_finite (widen x) = true /\ B2R (widen x) = B2R x /\ Bsign (widen x) = Bsign x.
  Proof.
    intros F. apply (conv_exact (p2 := 53) (e2 := 1024)); [|lia|exact F]. intros e. unfold SpecFloat.fexp, SpecFloat.emin. lia.
  Qed.
  Context (prec emax : Z) {Hp : Prec_gt_0 prec} {Hm : Prec_lt_emax prec emax}.
  Lemma of_py_widen (x : weak32) : (f_of_py (widen x) : binary_float prec emax) = f_conv prec emax x.
  Proof.
    rewrite of_py_conv. destruct (is_finite x) eqn:F.
    - destruct (widen_R x F) as (A & B & C). now apply conv_ext.
    - destruct x; cbn in F; try discriminate; reflexivity.
  Qed.
End Widen.

(** ** The two thresholds *)
Section Grid.
  Local Open Scope R_scope.
  (** multiples of 2^-24 *)
  Definition grid (x : R) : Prop := exists k, x = IZR k * bpow radix2 (-24).
  Lemma grid_bpow k e : (-24 <= e)%Z -> grid (IZR k * bpow radix2 e).
  Proof.
    intros L. exists (k * 2 ^ (e + 24))%Z. rewrite mult_IZR. rewrite Rmult_assoc. f_equal.
    change 2%Z with (radix_val radix2). rewrite (IZR_Zpower radix2) by lia. rewrite <- bpow_plus. f_equal. lia.
  Qed.
  Lemma grid_one_minus x : grid x -> grid (1 - x).
  Proof.
    intros [k ->]. exists (2 ^ 24 - k)%Z. rewrite minus_IZR, Rmult_minus_distr_r. f_equal.
    change (2 ^ 24)%Z with (radix_val radix2 ^ 24)%Z. rewrite (IZR_Zpower radix2) by lia. rewrite <- bpow_plus. reflexivity.
  Qed.
  Context (prec emax : Z) {Hp : Prec_gt_0 prec} {Hm : Prec_lt_emax prec emax} (H2 : (2 <= prec)%Z).
  Notation fexp := (SpecFloat.fexp prec emax).
  Notation rnd := (round radix2 fexp ZnearestE).
  Lemma rnd_cexp_grid x : (-24 <= cexp radix2 fexp x)%Z -> grid (rnd x).
  Proof. intros L. unfold round, F2R. cbn [Fnum Fexp]. now apply grid_bpow. Qed.
  Lemma format_cexp_grid x : generic_format radix2 fexp x -> (-24 <= cexp radix2 fexp x)%Z -> grid x.
  Proof. intros F L. rewrite <- (rnd_fmt prec emax x F). now apply rnd_cexp_grid. Qed.
  Lemma grid_rnd x : grid x -> grid (rnd x).
  Proof.
    intros G. destruct (Z_le_gt_dec (-24) (cexp radix2 fexp x)) as [L|L]; [now apply rnd_cexp_grid|].
    rewrite (rnd_fmt prec emax); [exact G|]. destruct G as [k ->].
    apply generic_format_F2R' with (f := Float radix2 k (-24)); [reflexivity|]. intros _. cbn [Fexp]. lia.
  Qed.
End Grid.
Lemma grid_format53 x : grid x -> (0 <= x <= 1)%R -> generic_format radix2 (SpecFloat.fexp 53 1024) x.
Proof.
  intros [k ->] B. apply generic_format_F2R' with (f := Float radix2 k (-24)); [reflexivity|]. intros NZ. cbn [Fexp].
  unfold cexp, SpecFloat.fexp, SpecFloat.emin.
  assert (M : (mag radix2 (IZR k * bpow radix2 (-24)) <= 1)%Z).
  { apply mag_le_bpow; [exact NZ|]. rewrite Rabs_pos_eq by tauto. change (bpow radix2 1) with 2%R. lra. }
  lia.
Qed.
Lemma grid_sub24 x : generic_format radix2 (SpecFloat.fexp 24 128) x -> (0 <= x <= 1)%R ->
  grid (round radix2 (SpecFloat.fexp 24 128) ZnearestE (1 - x)).
Proof.
  intros F [A B]. destruct (Rle_or_lt (/2) x) as [L|L].
  - apply grid_rnd, grid_one_minus, (format_cexp_grid 24 128); [exact F|].
    destruct (Rle_lt_or_eq_dec _ _ B) as [Lt| ->].
    + rewrite (cexp_half 24 128 ltac:(lia)) by lra. lia.
    + rewrite (cexp_one 24 128 ltac:(lia)) by lra. lia.
  - destruct (Rle_lt_or_eq_dec _ _ A) as [Gt|<-].
    + apply rnd_cexp_grid. rewrite (cexp_half 24 128 ltac:(lia)) by lra. lia.
    + rewrite Rminus_0_r, (rnd_1 24 128 ltac:(lia)). exists (2 ^ 24)%Z.
      change (2 ^ 24)%Z with (radix_val radix2 ^ 24)%Z. rewrite (IZR_Zpower radix2) by lia. rewrite <- bpow_plus. reflexivity.
Qed.

Section Thresholds.
  Context (prec emax : Z) {Hp : Prec_gt_0 prec} {Hm : Prec_lt_emax prec emax} (H2 : (2 <= prec)%Z).
  Notation bf := (binary_float prec emax).
  Notation fexp := (SpecFloat.fexp prec emax).
  Notation rnd := (round radix2 fexp ZnearestE).
  Notation rnd24 := (round radix2 (SpecFloat.fexp 24 128) ZnearestE).
  Notation rnd53 := (round radix2 (SpecFloat.fexp 53 1024) ZnearestE).
  Local Open Scope R_scope.

  Lemma trace_R eps : eps_ok eps -> funit (trace_scalar eps : weak32) /\ B2R (trace_scalar eps : weak32) = rnd24 (B2R eps).
  Proof. intros [F B]. unfold trace_scalar. rewrite <- (of_py_conv 24 128). now apply of_py_R. Qed.
  Lemma conv_unit (y : weak32) : funit y -> funit (f_conv prec emax y) /\ B2R (f_conv prec emax y) = rnd (B2R y).
  Proof.
    intros [F B]. destruct (widen_R y F) as (A & E & _). rewrite <- (of_py_widen prec emax), <- E.
    apply of_py_R; auto. now rewrite E.
  Qed.
  Lemma compiled_R eps : eps_ok eps ->
    funit (compiled_threshold prec emax eps) /\ B2R (compiled_threshold prec emax eps) = rnd (rnd24 (1 - rnd24 (B2R eps))).
  Proof.
    intros He. destruct (trace_R eps He) as [U E]. destruct (sub_one 24 128 ltac:(lia) _ U) as [U1 E1].
    unfold compiled_threshold. rewrite <- E, <- E1. now apply conv_unit.
  Qed.
  Lemma eager_R eps : eps_ok eps ->
    funit (eager_threshold prec emax eps) /\ B2R (eager_threshold prec emax eps) = rnd (rnd53 (1 - B2R eps)).
  Proof.
    intros He. destruct (sub_one 53 1024 ltac:(lia) _ He) as [[F U1] E1].
    unfold eager_threshold. rewrite <- E1. now apply of_py_R.
  Qed.
  Lemma compiled_grid eps : eps_ok eps -> grid (B2R (compiled_threshold prec emax eps)).
  Proof.
    intros He. destruct (compiled_R eps He) as [_ ->]. destruct (trace_R eps He) as [[_ U] E].
    apply grid_rnd, grid_sub24.
    - rewrite <- E. apply generic_format_B2R.
    - rewrite <- E. exact U.
  Qed.
  (** An epsilon with which an eager controller has the threshold of the compiled one. *)
  Lemma other_epsilon eps : eps_ok eps -> exists eps' : pyfloat, eps_ok eps' /\
    B2R (eager_threshold prec emax eps') = B2R (compiled_threshold prec emax eps) /\
    Rabs (B2R eps' - B2R eps) <= bpow radix2 (-24) + bpow radix2 (- prec - 1).
  Proof.
    intros He. pose proof (compiled_grid eps He) as G. destruct (compiled_R eps He) as [[F U] E].
    set (T := B2R (compiled_threshold prec emax eps)) in *.
    pose proof (grid_one_minus _ G) as G1.
    assert (F1 : generic_format radix2 (SpecFloat.fexp 53 1024) (1 - T)) by (apply grid_format53; [exact G1|lra]).
    destruct G1 as [k Ek].
    pose proof (binary_normalize_correct 53 1024 _ _ mode_NE k (-24) false) as X. cbn [round_mode] in X.
    replace (F2R (Float radix2 k (-24))) with (1 - T) in X by (rewrite Ek; reflexivity).
    rewrite (rnd_fmt 53 1024 _ F1) in X. rewrite Rlt_bool_true in X.
    2: { rewrite Rabs_pos_eq by lra. apply Rle_lt_trans with (bpow radix2 0); [change (bpow radix2 0) with 1; lra|apply bpow_lt; lia]. }
    destruct X as (X1 & X2 & _).
    set (e' := binary_normalize 53 1024 _ _ mode_NE k (-24) false : pyfloat) in *. exists e'.
    assert (He' : eps_ok e') by (split; [exact X2|rewrite X1; lra]).
    split; [exact He'|]. split.
    - destruct (eager_R e' He') as [_ ->]. rewrite X1. replace (1 - (1 - T)) with T by ring.
      rewrite (rnd_fmt 53 1024 T); [|now apply grid_format53]. unfold T. apply rnd_fmt, generic_format_B2R.
    - rewrite X1. destruct (trace_R eps He) as [[_ U2] E2]. destruct He as [_ B].
      assert (A1 := rnd_error_unit 24 128 ltac:(lia) (B2R eps) B).
      assert (B2 : 0 <= 1 - rnd24 (B2R eps) <= 1) by (rewrite <- E2; lra).
      assert (A2 := rnd_error_unit 24 128 ltac:(lia) _ B2).
      assert (B3 := rnd_unit 24 128 ltac:(lia) _ B2).
      assert (A3 := rnd_error_unit prec emax H2 _ B3).
      fold T in E. rewrite <- E in A3. unfold half_gap in *. change (- (24) - 1)%Z with (-25)%Z in *.
      assert (D : bpow radix2 (-24) = bpow radix2 (-25) + bpow radix2 (-25)).
      { change (-24)%Z with (1 + -25)%Z. rewrite bpow_plus. change (bpow radix2 1) with 2. ring. }
      rewrite D. apply Rabs_le_inv in A1, A2, A3. apply Rabs_le. lra.
  Qed.
  (** Comparing with equal numbers gives equal answers. *)
  Lemma ltb_same (t t' x : bf) : is_finite t = true -> is_finite t' = true -> B2R t = B2R t' -> Bltb t x = Bltb t' x.
  Proof.
    intros F F' E. destruct (is_finite x) eqn:Fx.
    - rewrite !Bltb_correct by assumption. now rewrite E.
    - destruct x as [s|s| |s m k Hx]; cbn in Fx; try discriminate.
      + destruct t as [[|]|[|]| |[|] ? ? ?], t' as [[|]|[|]| |[|] ? ? ?]; cbn in F, F'; try discriminate; destruct s; reflexivity.
      + destruct t as [[|]|[|]| |[|] ? ? ?], t' as [[|]|[|]| |[|] ? ? ?]; cbn in F, F'; try discriminate; reflexivity.
  Qed.
End Thresholds.

Lemma grid_format24 x : grid x -> (0 <= x <= 1)%R -> generic_format radix2 (SpecFloat.fexp 24 128) x.
Proof.
  intros G B. destruct (Req_dec x 1) as [->|E]; [apply (format_1 24 128); lia|]. destruct G as [k ->].
  apply generic_format_F2R' with (f := Float radix2 k (-24)); [reflexivity|]. intros NZ. cbn [Fexp].
  unfold cexp, SpecFloat.fexp, SpecFloat.emin.
  assert (M : (mag radix2 (IZR k * bpow radix2 (-24)) <= 0)%Z).
  { apply mag_le_bpow; [exact NZ|]. rewrite Rabs_pos_eq by tauto. change (bpow radix2 0) with 1%R. lra. }
  lia.
Qed.
(** Multiples of 2^-24 survive in every format. *)
Lemma grid_survives (prec emax : Z) {Hp : Prec_gt_0 prec} {Hm : Prec_lt_emax prec emax} eps : (2 <= prec)%Z ->
  eps_ok eps -> grid (B2R eps) -> epsilon_survives prec emax eps.
Proof.
  intros H2 He G. unfold epsilon_survives. destruct (eager_R prec emax H2 eps He) as [_ ->], (compiled_R prec emax H2 eps He) as [_ ->].
  destruct He as [_ B]. assert (G1 := grid_one_minus _ G).
  rewrite (rnd_fmt 24 128 (B2R eps)) by now apply grid_format24.
  rewrite (rnd_fmt 24 128), (rnd_fmt 53 1024); [reflexivity|apply grid_format53|apply grid_format24]; auto; lra.
Qed.
(** float32 arrays: every float32 epsilon that is a multiple of 2^-53 survives. *)
Lemma single_survives eps : eps_ok eps -> generic_format radix2 (SpecFloat.fexp 24 128) (B2R eps) ->
  (exists k, B2R eps = IZR k * bpow radix2 (-53))%R -> epsilon_survives 24 128 eps.
Proof.
  intros He F [k Ek]. unfold epsilon_survives. destruct (eager_R 24 128 ltac:(lia) eps He) as [_ ->], (compiled_R 24 128 ltac:(lia) eps He) as [_ ->].
  destruct He as [_ B]. rewrite (rnd_fmt 24 128 (B2R eps) F).
  rewrite (rnd_fmt 24 128 (round radix2 (SpecFloat.fexp 24 128) ZnearestE (1 - B2R eps))) by (apply generic_format_round; [apply FLT_exp_valid; reflexivity|apply valid_rnd_N]).
  f_equal. apply rnd_fmt. assert (E1 : (1 - B2R eps = IZR (2 ^ 53 - k) * bpow radix2 (-53))%R).
  { rewrite Ek, minus_IZR, Rmult_minus_distr_r. f_equal. change (2 ^ 53)%Z with (radix_val radix2 ^ 53)%Z.
    rewrite (IZR_Zpower radix2) by lia. rewrite <- bpow_plus. reflexivity. }
  destruct (Req_dec (1 - B2R eps) 1) as [Q|Q]; [rewrite Q; apply (format_1 53 1024); lia|].
  assert (B1 : (0 <= 1 - B2R eps <= 1)%R) by lra. rewrite E1 in B1, Q |- *.
  apply generic_format_F2R' with (f := Float radix2 (2 ^ 53 - k) (-53)); [reflexivity|]. intros NZ. cbn [Fexp].
  unfold cexp, SpecFloat.fexp, SpecFloat.emin.
  assert (M : (mag radix2 (IZR (2 ^ 53 - k) * bpow radix2 (-53)) <= 0)%Z).
  { apply mag_le_bpow; [exact NZ|]. rewrite Rabs_pos_eq by tauto. change (bpow radix2 0) with 1%R. lra. }
  lia.
Qed.
(** float32 arrays: the depression constant always survives. *)
Lemma single_depression dep : depression_survives 24 128 dep.
Proof. unfold depression_survives. rewrite (of_py_conv 24 128). unfold trace_scalar. now rewrite conv_self. Qed.
Lemma one_depression (prec emax : Z) {Hp : Prec_gt_0 prec} {Hm : Prec_lt_emax prec emax} : (2 <= prec)%Z ->
  depression_survives prec emax Bone /\ (f_conv prec emax (trace_scalar Bone) : binary_float prec emax) = f_one.
Proof.
  intros H2. assert (T : trace_scalar Bone = Bone) by (unfold trace_scalar; rewrite <- (of_py_conv 24 128); apply of_py_one; lia).
  assert (C : (f_conv prec emax (trace_scalar Bone) : binary_float prec emax) = f_one).
  { rewrite T. destruct (conv_unit prec emax H2 (Bone : weak32) (one_unit 24 128)) as [[F _] E].
    apply eq_one; [exact F|]. rewrite E. change (Bone : weak32) with (f_one : weak32). rewrite one_R. now apply rnd_1. }
  split; [|exact C]. unfold depression_survives. rewrite C. now apply of_py_one.
Qed.

(** ** Runs *)
Section Runs.
  Context (prec emax : Z) {Hp : Prec_gt_0 prec} {Hm : Prec_lt_emax prec emax}.
  Notation F := (FloatNum prec emax).
  Notation J := (JitNum prec emax).
  Notation bf := (binary_float prec emax).
  Notation R := (fun x y : bf => y = x).
  (** eager settings [e], [d] that stand for the traced [e'], [d'] *)
  Context (e d : pyfloat) (e' d' : weak32).
  Context (HT : forall x : bf, Bltb (f_of_py (Bminus mode_NE Bone e) : bf) x = Bltb (f_conv prec emax (Bminus mode_NE Bone e') : bf) x).
  Context (HD : (f_of_py d : bf) = f_conv prec emax d').
  Notation rel := (rs (N := F) (M := J) R e e' d d').

  Lemma jit_call_rr s s' c c' : rel s s' -> rcall (N := F) (M := J) R c c' -> rr rel (apply_call s c) (apply_call s' c').
  Proof.
    apply rs_call; cbn [val v_zero v_one v_add v_sub v_mul v_max v_min v_ltb v_of_scl s_one_sub FloatNum JitNum]; try congruence.
  Qed.
  Lemma jit_run_rr cs cs' s s' : Forall2 (rcall (N := F) (M := J) R) cs cs' -> rel s s' -> rel (run s cs) (run s' cs').
  Proof.
    intros H. revert s s'. revert cs cs' H.
    apply (rs_run (N := F) (M := J) R); cbn [val v_zero v_one v_add v_sub v_mul v_max v_min v_ltb v_of_scl s_one_sub FloatNum JitNum]; try congruence.
  Qed.
  Lemma jit_halted s s' : rel s s' -> halted_batches s = halted_batches s'.
  Proof.
    apply rs_halted. cbn [val v_ltb v_of_scl s_one_sub FloatNum JitNum]. intros x y ->. apply HT.
  Qed.
  Lemma jit_views s s' : rel s s' -> rr rel (unhalted_only s) (unhalted_only s') /\ rr rel (halted_only s) (halted_only s').
  Proof.
    apply rs_halted_views; cbn [val v_zero v_one v_add v_sub v_mul v_max v_min v_ltb v_of_scl s_one_sub FloatNum JitNum]; try congruence.
  Qed.
  Lemma jit_calls cs : Forall2 (rcall (N := F) (M := J) R) cs (map jit_call cs).
  Proof. induction cs; cbn; constructor; auto. now apply (rcall_move (N := F) (M := J) (fun x => x)). Qed.
  Lemma jit_while l l' check x x' :
    (forall c c' u u', rel c c' -> ltree (ra (N := F) (M := J) R) u u' ->
       rr (rret (N := F) (M := J) R e e' d d') (l_run_iteration l c u) (l_run_iteration l' c' u')) ->
    rcarry (N := F) (M := J) R e e' d d' x x' ->
    rr (rcarry (N := F) (M := J) R e e' d d') (while_loop (run_layer_adapter check l) x) (while_loop (run_layer_adapter check l') x').
  Proof.
    intros LL. apply rs_while; [|exact LL]. cbn [val v_ltb v_of_scl s_one_sub FloatNum JitNum]. intros a b ->. apply HT.
  Qed.
End Runs.
