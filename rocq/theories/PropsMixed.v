(** * C82: statistics in the core dtype, accumulators in a larger dtype.

    Any two IEEE-754 formats. Vocabulary: MixedSpec.v, FloatSpec.v, ScalarSpec.v, ElementSpec.v, History.v. *)
From Coq Require Import ZArith Reals Lia Lra Psatz.
From Flocq Require Import Core BinarySingleNaN.
From Verif Require Import Base PyTree Tensor Num FloatNum FloatSpec Utils States Controller Builder Wf Spec History ElementSpec ScalarSpec BuilderSpec
  Jit Mixed MixedSpec.
From Verif Require Import BaseFacts ControllerFacts IterateFacts HistoryFacts AgreeFacts GravesFacts ExactFacts ExactFacts2 ElementFacts BuilderFacts
  ScalarFacts ScriptFacts FloatFacts FloatFacts2 FloatFacts3 FloatFacts4 FloatFacts5 JitFacts MixedFacts Samples.
From Verif Require Import PropsController PropsScalar PropsFloat.
Close Scope R_scope. Close Scope Z_scope. Open Scope string_scope. Open Scope list_scope. Open Scope nat_scope.

(** the halting threshold and the depression constant, rounded to the core format *)
Notation core_thr pn en s := (f_of_py (Bminus mode_NE Bone (epsilon s)) : val (FloatNum pn en)).
Notation core_dep pn en s := (f_of_py (depression_constant s) : val (FloatNum pn en)).

(** ** Statistics and halting are computed in the core format alone *)
Theorem C82_statistics (pn en pw ew : Z) {Hpn : Prec_gt_0 pn} {Hmn : Prec_lt_emax pn en} {Hpw : Prec_gt_0 pw} {Hmw : Prec_lt_emax pw ew}
  (s : state (MixedNum pn en pw ew)) cs i p r n :
  wf s -> fresh s -> Forall call_wf cs -> Forall (halting_values narrow) cs -> element (run s cs) i p r n ->
  exists vs : list (option (binary_float pn en)),
    stats_program i (returned s cs) = map (option_map Nar) vs /\
    let z := stats_run (core_thr pn en s) (core_dep pn en s) stats0 vs in
    p = Nar (cumulative z : binary_float pn en) /\ r = Nar (remainder z : binary_float pn en) /\ n = Nar (steps z : binary_float pn en) /\
    halted (run s cs) i = Some (is_over (core_thr pn en s) z).
Proof.
  intros W F C G El. destruct (C64_every_element_runs_the_scalar_program s cs W F C) as [S _]. specialize (S _ _ _ _ El).
  destruct (stats_marked _ (stats_program_halting narrow i _ (returned_all _ s cs G))) as [vs E]. exists vs. split; [exact E|]. intros z.
  rewrite E in S. cbn [v_of_scl s_one_sub MixedNum] in S. rewrite lift0 in S. rewrite (lift_run (pw := pw) (ew := ew) _ _ vs stats0) in S.
  pose proof (f_equal cumulative S) as S1. pose proof (f_equal remainder S) as S2. pose proof (f_equal steps S) as S3. cbn [cumulative remainder steps lift] in S1, S2, S3.
  split; [exact S1|]. split; [exact S2|]. split; [exact S3|].
  destruct El as (Hpi & _). unfold halted. rewrite (halted_get _ _ _ Hpi). f_equal. unfold halted_at, threshold.
  rewrite (sf_eps _ _ (run_frame s cs W (Samples.fresh_wf_pending _ F) C)), S1. reflexivity.
Qed.
Print Assumptions C82_statistics.

(** An element of a controller kept in the core format alone that is given the same halting values (and
    resets), with the same epsilon and depression constant, has the same statistics, bit for bit. *)
Theorem C82_like_a_core_controller (pn en pw ew : Z) {Hpn : Prec_gt_0 pn} {Hmn : Prec_lt_emax pn en} {Hpw : Prec_gt_0 pw} {Hmw : Prec_lt_emax pw ew}
  (s : state (MixedNum pn en pw ew)) cs i p r n (s' : state (FloatNum pn en)) cs' i' p' r' n' :
  wf s -> fresh s -> Forall call_wf cs -> wf s' -> fresh s' -> Forall call_wf cs' ->
  (epsilon s : pyfloat) = epsilon s' -> (depression_constant s : pyfloat) = depression_constant s' ->
  stats_program i (returned s cs) = map (option_map Nar) (stats_program i' (returned s' cs') : list (option (binary_float pn en))) ->
  element (run s cs) i p r n -> element (run s' cs') i' p' r' n' ->
  p = Nar (p' : binary_float pn en) /\ r = Nar (r' : binary_float pn en) /\ n = Nar (n' : binary_float pn en) /\
  halted (run s cs) i = halted (run s' cs') i'.
Proof.
  intros W F C W' F' C' Ee Ed E El El'. destruct (C64_every_element_runs_the_scalar_program s cs W F C) as [S _]. specialize (S _ _ _ _ El).
  destruct (C64_every_element_runs_the_scalar_program s' cs' W' F' C') as [S' _]. specialize (S' _ _ _ _ El').
  rewrite E in S. cbn [v_of_scl s_one_sub MixedNum] in S. rewrite lift0 in S. rewrite (lift_run (pw := pw) (ew := ew) _ _ _ stats0) in S.
  rewrite Ee, Ed in S. cbn [v_of_scl s_one_sub FloatNum] in S'. rewrite <- S' in S.
  pose proof (f_equal cumulative S) as S1. pose proof (f_equal remainder S) as S2. pose proof (f_equal steps S) as S3. cbn [cumulative remainder steps lift] in S1, S2, S3.
  split; [exact S1|]. split; [exact S2|]. split; [exact S3|].
  destruct El as (Hpi & _). destruct El' as (Hpi' & _). unfold halted. rewrite (halted_get _ _ _ Hpi), (halted_get _ _ _ Hpi'). f_equal. unfold halted_at, threshold.
  rewrite (sf_eps _ _ (run_frame s cs W (Samples.fresh_wf_pending _ F) C)), (sf_eps _ _ (run_frame s' cs' W' (Samples.fresh_wf_pending _ F') C')), S1, <- Ee. reflexivity.
Qed.
Print Assumptions C82_like_a_core_controller.

(** ** Entries: in the larger format from weights of the core format, or in the core format throughout *)
Theorem C82_entries (pn en pw ew : Z) {Hpn : Prec_gt_0 pn} {Hmn : Prec_lt_emax pn en} {Hpw : Prec_gt_0 pw} {Hmw : Prec_lt_emax pw ew}
  (s : state (MixedNum pn en pw ew)) cs :
  wf s -> fresh s -> Forall call_wf cs -> Forall (halting_values narrow) cs ->
  forall k t d, dget k (accumulators (run s cs)) = Some t -> dget k (defaults s) = Some d ->
  forall l a dl, nth_error (leaves t) l = Some a -> nth_error (leaves d) l = Some dl ->
  forall Rs, a_shape a = batch_shape s ++ Rs ->
  forall j av, a.[j] = Some av ->
  (Forall (updates_of k wide) cs -> forall dv, dl.[j] = Some (Wid dv) ->
   exists prog, value_program (j / size Rs) k l j (returned s cs) (marked prog) /\
     av = Wid (wide_run (core_thr pn en s) (core_dep pn en s) dv stats0 dv prog)) /\
  (Forall (updates_of k narrow) cs -> forall dv, dl.[j] = Some (Nar dv) ->
   exists prog, value_program (j / size Rs) k l j (returned s cs) (marked_narrow prog) /\
     av = Nar (value_run (core_thr pn en s) (core_dep pn en s) (dv : val (FloatNum pn en)) stats0 (dv : val (FloatNum pn en)) prog : binary_float pn en)).
Proof.
  intros W F C G k t d Ht Hdf l a dl Ha Hdl Rs Hsh j av Hav.
  destruct (C64_every_element_runs_the_scalar_program s cs W F C) as [_ A].
  split; intros U dv Hdv; destruct (A k t d Ht Hdf l a dl Ha Hdl Rs Hsh j av _ Hav Hdv) as (prog & Hprog & Eav).
  - destruct (program_marked prog (program_values narrow wide _ k l j _ prog (returned_all _ s cs G) (returned_all _ s cs U) Hprog)) as [q ->].
    exists q. split; [exact Hprog|]. rewrite Eav, lift0. apply lift_wide.
  - destruct (program_marked_narrow prog (program_values narrow narrow _ k l j _ prog (returned_all _ s cs G) (returned_all _ s cs U) Hprog)) as [q ->].
    exists q. split; [exact Hprog|]. rewrite Eav, lift0. apply lift_narrow.
Qed.
Print Assumptions C82_entries.

(** ** Rounding errors: those of the larger format, apart from the weights *)
Definition core_number {pn en pw ew : Z} {Hpn : Prec_gt_0 pn} {Hmn : Prec_lt_emax pn en} {Hpw : Prec_gt_0 pw} {Hmw : Prec_lt_emax pw ew}
  (v : val (MixedNum pn en pw ew)) : Prop := exists x : binary_float pn en, v = Nar x /\ is_nan x = false.
Definition wide_finite {pn en pw ew : Z} {Hpn : Prec_gt_0 pn} {Hmn : Prec_lt_emax pn en} {Hpw : Prec_gt_0 pw} {Hmw : Prec_lt_emax pw ew}
  (v : val (MixedNum pn en pw ew)) : Prop := exists y : binary_float pw ew, v = Wid y /\ is_finite y = true.

Theorem C82_accumulator_error (pn en pw ew : Z) {Hpn : Prec_gt_0 pn} {Hmn : Prec_lt_emax pn en} {Hpw : Prec_gt_0 pw} {Hmw : Prec_lt_emax pw ew}
  (s : state (MixedNum pn en pw ew)) cs :
  (2 <= pn)%Z -> wider pn en pw ew -> wf s -> fresh s -> Forall call_wf cs -> Forall (fun c => c <> CReset) cs ->
  Forall (halting_values core_number) cs -> eps_ok (epsilon s) -> dep_ok pn en (depression_constant s) ->
  forall k t d, dget k (accumulators (run s cs)) = Some t -> dget k (defaults s) = Some d -> Forall (updates_of k wide_finite) cs ->
  forall l a dl, nth_error (leaves t) l = Some a -> nth_error (leaves d) l = Some dl ->
  forall Rs, a_shape a = batch_shape s ++ Rs ->
  forall j av dv, a.[j] = Some av -> dl.[j] = Some (Wid dv) -> is_finite dv = true ->
  exists es, value_program (j / size Rs) k l j (returned s cs) (marked (map Some es)) /\ exists y, av = Wid y /\
    let xs := wide_shares (core_thr pn en s) (core_dep pn en s) stats0 es in
    let p := cumulative (stats_run (core_thr pn en s) (core_dep pn en s) stats0 (map Some (map fst es))) in
    (** the weights, of the core format, add up to the probability of the element up to its roundoff *)
    Forall (fun x => fnonneg (fst x)) xs /\
    (Rabs (Rsum (map (fun x => B2R (fst x)) xs) - B2R (p : binary_float pn en)) <= INR (length xs) * bpow radix2 (- pn))%R /\
    (** the entry is their weighted sum up to the roundoff of the larger format *)
    (let tot := Rsum (map (fun x => Rabs (exact_wide_share x)) xs) in
     (magnitude_bound pw ew (length xs) (B2R dv) tot < bpow radix2 ew)%R ->
     is_finite y = true /\
     (Rabs (B2R y - (B2R dv + Rsum (map exact_wide_share xs))) <= error_bound pw ew (length xs) (B2R dv) tot)%R) /\
    (forall M, (Rabs (B2R dv) <= M)%R -> Forall (fun e => (Rabs (B2R (snd e)) <= M)%R) es ->
     let m := length xs in let tot := (M * (1 + INR m * bpow radix2 (- pn)))%R in
     (magnitude_bound pw ew m M tot < bpow radix2 ew)%R ->
     is_finite y = true /\
     (Rabs (B2R y - (B2R dv + Rsum (map exact_wide_share xs))) <= error_bound pw ew m M tot)%R).
Proof.
  intros H2 Wd W F C Nr G He Hd k t d Ht Hdf Gu l a dl Ha Hdl Rs Hsh j av dv Hav Hdv Fdv.
  destruct (C64_every_element_runs_the_scalar_program s cs W F C) as [_ A].
  destruct (A k t d Ht Hdf l a dl Ha Hdl Rs Hsh j av _ Hav Hdv) as (prog & Hprog & Eav).
  pose proof (program_values core_number wide_finite _ k l j _ prog (returned_all _ s cs G) (returned_all _ s cs Gu) Hprog) as PV.
  destruct (value_program_values _ _ _ _ _ _ (returned_all _ s cs Nr) Hprog) as (es0 & -> & _).
  assert (Q : exists es : list (binary_float pn en * binary_float pw ew), map Some es0 = marked (map Some es) /\
             Forall (fun e => is_nan (fst e) = false) es /\ Forall (fun e => is_finite (snd e) = true) es).
  { clear -PV. induction es0 as [|[v u] es0 IH]; [exists []; repeat constructor|]. cbn [map] in PV. inversion PV as [|? ? PV0 PV']; subst.
    destruct PV0 as [[x [Ex Nx]] [y [Ey Fy]]].
    cbn [fst snd] in *. subst. destruct (IH PV') as (es & E & E1 & E2). exists ((x, y) :: es). cbn [map marked option_map fst snd]. rewrite E. repeat split; constructor; auto. }
  destruct Q as (es & E & Nn & Fu). rewrite E in Hprog, Eav. exists es. split; [exact Hprog|].
  set (S0 := settings (pn := pn) (en := en) (epsilon s : pyfloat) (depression_constant s : pyfloat)).
  assert (HeS : eps_ok (epsilon S0)) by exact He. assert (HdS : dep_ok pn en (depression_constant S0)) by exact Hd.
  change (core_thr pn en s) with (threshold S0) in *. change (core_dep pn en s) with (v_of_scl (FloatNum pn en) (depression_constant S0)) in *.
  set (thr := threshold S0) in *. set (dep := v_of_scl (FloatNum pn en) (depression_constant S0)) in *.
  exists (wide_run thr dep dv stats0 dv (map Some es)). split.
  { rewrite Eav, lift0. exact (lift_wide (pw := pw) (ew := ew) thr dep (map Some es) dv stats0 dv). }
  intros xs p. rewrite (wide_run_shares thr dep dv es stats0 dv). fold xs.
  assert (Nv : Forall (fun v : val (FloatNum pn en) => is_nan (v : binary_float pn en) = false) (map fst es)) by (apply Forall_map; exact Nn).
  pose proof (sane0 pn en H2 S0 HeS) as Z0.
  destruct (weights_sum pn en H2 S0 HeS HdS _ stats0 Z0 Nv) as [Wn Ws]. fold thr dep in Wn, Ws.
  pose proof (sn_unit _ _ _ _ (sane_run pn en H2 S0 HeS HdS _ stats0 Z0 Nv)) as [_ [_ P1]]. fold thr dep in P1.
  assert (Ew : map fst xs = ScalarSpec.weights (N := FloatNum pn en) thr dep stats0 (map fst es)) by exact (wide_shares_weights thr dep es stats0).
  rewrite <- Ew in Wn, Ws. rewrite map_length, map_map in Ws.
  assert (Wx : Forall (fun x : binary_float pn en * binary_float pw ew => fnonneg (fst x)) xs).
  { apply Forall_forall. intros x Hx. rewrite Forall_forall in Wn. exact (Wn (fst x) (in_map fst _ _ Hx)). }
  split; [exact Wx|]. split.
  { rewrite <- (Rplus_0_l (Rsum _)). exact Ws. }
  assert (Fx : Forall (fun x : binary_float pw ew * binary_float pw ew => is_finite (fst x) = true /\ is_finite (snd x) = true) (map widened xs)).
  { apply Forall_map, Forall_forall. intros x Hx. rewrite Forall_forall in Wx. destruct (Wx x Hx) as [Fw _]. split.
    - exact (proj1 (wider_conv (pw := pw) (ew := ew) (fst x) Wd Fw)).
    - assert (X : Forall (fun u : binary_float pw ew => is_finite u = true) (map snd es)) by (apply Forall_map; exact Fu).
      rewrite Forall_forall in X. exact (X _ (wide_shares_incl thr dep es stats0 x Hx)). }
  assert (Ex : map exact_share (map widened xs) = map exact_wide_share xs).
  { rewrite map_map. apply map_ext_in. intros x Hx. rewrite Forall_forall in Wx. destruct (Wx x Hx) as [Fw _].
    unfold exact_share, exact_wide_share, widened. cbn [fst snd]. now rewrite (proj2 (wider_conv (pw := pw) (ew := ew) (fst x) Wd Fw)). }
  assert (Eabs : map (fun x => Rabs (exact_share x)) (map widened xs) = map (fun x => Rabs (exact_wide_share x)) xs).
  { rewrite <- (map_map exact_share Rabs), Ex, map_map. reflexivity. }
  pose proof (shares_error pw ew (map widened xs) dv Fdv Fx) as Er. cbv zeta in Er. rewrite Ex, Eabs, map_length in Er.
  set (y := fold_left (share_step pw ew) (map widened xs) dv) in *.
  split; [exact Er|]. intros M Md Mu m tot' Big.
  set (tot := Rsum (map (fun x => Rabs (exact_wide_share x)) xs)) in *.
  set (e := bpow radix2 (- pw)) in *. assert (Pe : (0 < e)%R) by apply bpow_gt_0.
  assert (Mpos : (0 <= M)%R) by (eapply Rle_trans; [apply Rabs_pos|exact Md]).
  assert (Lt : (tot <= tot')%R).
  { assert (L : (tot <= M * Rsum (map (fun x => B2R (fst x)) xs))%R).
    { assert (Mx : Forall (fun x : binary_float pn en * binary_float pw ew => (Rabs (B2R (snd x)) <= M)%R) xs).
      { apply Forall_forall. intros x Hx. assert (X : Forall (fun u : binary_float pw ew => (Rabs (B2R u) <= M)%R) (map snd es)) by (apply Forall_map; exact Mu).
        rewrite Forall_forall in X. exact (X _ (wide_shares_incl thr dep es stats0 x Hx)). }
      unfold tot. clear -Wx Mx Mpos. clearbody xs. induction xs as [|x xs IH]; cbn [map Rsum]; [lra|]. inversion Mx; inversion Wx as [|? ? Wx0 Wx']; subst.
      specialize (IH Wx' ltac:(assumption)). unfold exact_wide_share at 1. rewrite Rabs_mult, (Rabs_pos_eq (B2R (fst x))) by apply Wx0.
      rewrite Rmult_plus_distr_l, (Rmult_comm M). apply Rplus_le_compat; [|exact IH].
      apply Rmult_le_compat_l; [apply Wx0|assumption]. }
    eapply Rle_trans; [exact L|]. apply Rmult_le_compat_l; [exact Mpos|].
    apply Rabs_le_inv in Ws. cbn [cumulative stats0 v_zero FloatNum] in Ws. change (B2R (f_zero : binary_float pn en)) with 0%R in Ws.
    fold m in Ws. assert (K : forall A B C : R, (0 + A - B <= C -> B <= 1 -> A <= 1 + C)%R) by (clear; intros; lra).
    exact (K _ _ _ (proj2 Ws) P1). }
  assert (G1 : (1 <= (1 + e) ^ m)%R) by (apply pow_R1_Rle; lra). assert (G2 : (1 <= (1 + e) ^ S m)%R) by (apply pow_R1_Rle; lra).
  assert (Tp : (0 <= tot)%R) by apply (Rsum_abs_nonneg exact_wide_share).
  assert (X1 : (magnitude_bound pw ew m (B2R dv) tot <= magnitude_bound pw ew m M tot')%R).
  { unfold magnitude_bound. cbv zeta. fold e. rewrite (Rabs_pos_eq M Mpos).
    apply Rplus_le_compat_r. apply Rplus_le_compat; apply Rmult_le_compat_l; lra. }
  assert (X2 : (error_bound pw ew m (B2R dv) tot <= error_bound pw ew m M tot')%R).
  { unfold error_bound. cbv zeta. fold e. rewrite (Rabs_pos_eq M Mpos).
    apply Rplus_le_compat_r. apply Rplus_le_compat; apply Rmult_le_compat_l; lra. }
  destruct (Er (Rle_lt_trans _ _ _ X1 Big)) as [Y1 Y2]. split; [exact Y1|]. eapply Rle_trans; [exact Y2|exact X2].
Qed.
Print Assumptions C82_accumulator_error.

(** ** A bfloat16 controller with a float32 accumulator "x" and a bfloat16 accumulator "y" *)
Notation MB := (MixedNum 8 128 24 128).
Definition nb (a b : Z) : val MB := Nar (f_of_py (py_div a b)).
Definition wb (a b : Z) : val MB := Wid (f_of_py (py_div a b)).
Definition arrN (sh : list nat) (d : list (val MB)) : array MB := mkA (N := MB) DBF16 (mkT sh d).
Definition arrW (sh : list nat) (d : list (val MB)) : array MB := mkA (N := MB) DF32 (mkT sh d).
Definition defsM : list (bcall MB) := [BDirect "x" (Leaf (arrW [2] [wb 0 1; wb 0 1])); BDirect "y" (Leaf (arrN [2] [nb 0 1; nb 0 1]))].
Definition coreM : state MB := empty_state (N := MB) [2] DBF16 (py_div 1 10) (py_div 1 1) None.
Definition ctlM : state MB := brun coreM defsM.
Definition stepM (a b : val MB) : list (call MB) :=
  [CCache (N := MB) "x" (Leaf (arrW [2] [wb 1 3; wb 2 7])); CCache (N := MB) "y" (Leaf (arrN [2] [nb 1 3; nb 2 7])); CIter (N := MB) (arrN [2] [a; b])].
Definition callsM : list (call MB) := stepM (nb 1 3) (nb 1 10) ++ stepM (nb 1 3) (nb 9 10) ++ stepM (nb 1 3) (nb 1 2).
Lemma ctlM_ok : wf ctlM /\ fresh ctlM.
Proof.
  assert (B : new_builder_with (N := MB) (Some None) (BInt 2) (Some DBF16) (py_div 1 10) (py_div 1 1) = Ok coreM).
  { apply new_builder_with_ok. split; [reflexivity|]. split; [split; vm_compute; reflexivity|]. split; [constructor; [lia|constructor]|reflexivity]. }
  destruct (new_builder_wf _ _ _ _ _ _ B) as [W F]. destruct (brun_wf _ defsM W F) as (W' & F' & _); [repeat constructor|]. now split.
Qed.
(** format and bits *)
Definition show (v : val MB) : bool * SpecFloat.spec_float :=
  match v with Nar x => (false, B2SF x) | Wid y => (true, B2SF y) end.
Example C82_case : wf ctlM /\ fresh ctlM /\ Forall call_wf callsM /\ Forall (fun c => c <> CReset) callsM /\
  Forall (halting_values core_number) callsM /\ Forall (updates_of "x" wide_finite) callsM /\ Forall (updates_of "y" narrow) callsM /\
  wider 8 128 24 128 /\ wider 11 16 24 128 /\ wider 24 128 53 1024 /\ eps_ok (epsilon ctlM) /\ dep_ok 8 128 (depression_constant ctlM) /\
  List.length (returned ctlM callsM) = 9 /\
  (** element 0: bfloat16 weights 171/512, 171/512 and the remainder 170/512, which add up to 1; element 1: 205/2048 and
      the remainder 230/256, which add up to 1 - 3/2048 *)
  map show (a_data (probabilities (run ctlM callsM))) = [show (nb 1 1); show (nb 1 1)] /\
  map show (a_data (residuals (run ctlM callsM))) = [show (nb 170 512); show (nb 230 256)] /\
  (** "x" holds float32 numbers: one third, and 2045/2048 of two sevenths *)
  option_map (fun t => map (fun a => map show (a_data a)) (leaves t)) (dget "x" (accumulators (run ctlM callsM))) =
    Some [[show (wb 1 3); show (wb (2 * 2045) (7 * 2048))]] /\
  (** "y" holds bfloat16 numbers *)
  option_map (fun t => map (fun a => map show (a_data a)) (leaves t)) (dget "y" (accumulators (run ctlM callsM))) =
    Some [[show (nb 1 3); show (nb 2 7)]].
Proof.
  destruct ctlM_ok as [W F]. split; [exact W|]. split; [exact F|]. split; [repeat constructor|]. split; [repeat constructor; discriminate|].
  split; [repeat constructor; eexists; (split; [reflexivity|vm_compute; reflexivity])|].
  split; [apply Forall_forall; intros c Hc; cbn in Hc; decompose [or] Hc; subst; try contradiction; cbn [updates_of]; try exact I;
    intros E; try discriminate; repeat constructor; eexists; (split; [reflexivity|vm_compute; reflexivity])|].
  split; [apply Forall_forall; intros c Hc; cbn in Hc; decompose [or] Hc; subst; try contradiction; cbn [updates_of]; try exact I;
    intros E; try discriminate; repeat constructor; eexists; reflexivity|].
  do 3 (split; [unfold wider; vm_compute; repeat split; discriminate|]).
  split; [apply unit_by_computation; vm_compute; reflexivity|].
  split; [split; [vm_compute; reflexivity|apply (leb_real (f_zero (prec := 8) (emax := 128))); vm_compute; reflexivity]|].
  do 4 (split; [vm_compute; reflexivity|]). vm_compute. reflexivity.
Qed.
