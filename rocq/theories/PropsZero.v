(** * C99: an iteration with halting probability zero contributes nothing to an element but its count.

    True over the rationals; in IEEE-754 arithmetic violated by updates that are not finite, true for all others.

    Vocabulary: FloatSpec.v ([same_number]: equal, or zeros of either sign), PropsController.v. *)
From Coq Require Import ZArith QArith Qcanon Reals Lia Lra.
From Flocq Require Import Core BinarySingleNaN.
From Verif Require Import Base PyTree Tensor Num FloatNum FloatSpec Utils States Controller Builder Layers
  Wf Spec History ElementSpec BuilderSpec StateSpec LayerSpec.
From Verif Require Import BaseFacts PyTreeFacts ControllerFacts IterateFacts ResetFacts HistoryFacts AgreeFacts ExactFacts ElementFacts
  QcFacts GravesFacts FloatFacts FloatFacts2 FloatFacts6 Samples.
From Verif Require Import PropsController PropsFloat PropsNan.
Close Scope Qc_scope. Close Scope Q_scope. Close Scope R_scope. Close Scope Z_scope. Open Scope string_scope. Open Scope list_scope. Open Scope nat_scope.

Theorem C99_exact (s : state QcNum) h s' b v :
  wf s -> wf_pending s -> awf h -> iterate_act s h = Ok s' -> halted s b = Some false -> h.[b] = Some v -> (v <= 0)%Qc ->
  (probabilities s').[b] = (probabilities s).[b] /\ (residuals s').[b] = (residuals s).[b] /\ halted s' b = Some false /\
  (forall n, (iterations s).[b] = Some n -> (iterations s').[b] = Some (n + 1)%Qc) /\
  forall k t t', dget k (accumulators s) = Some t -> dget k (accumulators s') = Some t' ->
    forall l a a', nth_error (leaves t) l = Some a -> nth_error (leaves t') l = Some a' ->
    forall R, a_shape a = batch_shape s ++ R -> forall j, j / size R = b -> a'.[j] = a.[j].
Proof.
  intros W P Ah E Hh Hv Le. destruct (iterate_committed s h s' W P Ah E) as (Cm & W' & P').
  apply halted_get_inv in Hh as (p & Hpb & Hh). symmetry in Hh.
  assert (Sc : scaled s v = 0%Qc).
  { unfold scaled. cbn [v_mul v_of_scl QcNum]. assert (C : clip01 (N := QcNum) v = 0%Qc).
    { rewrite clip01_clamp. unfold clamp. destruct (Qclt_le_dec v 0) as [L|L]; [reflexivity|].
      assert (v = 0%Qc) as -> by (apply Qcle_antisym; assumption). reflexivity. }
    rewrite C. match goal with |- ?a = ?b => change (@eq Qc a b) end. ring. }
  assert (Hn : halts_now s p v = false).
  { unfold halts_now. rewrite Sc. unfold halted_at in Hh. cbn [v_add QcNum].
    assert (X : forall x : Qc, (0 + x = x)%Qc) by (intros; ring). rewrite (X p). exact Hh. }
  assert (Hw : weight s p v = 0%Qc) by (unfold weight; now rewrite Hn, Sc).
  destruct (element_exists s b p W Hpb) as (r & n & (_ & Hr & Hi)).
  assert (Ep : (probabilities s').[b] = Some p).
  { rewrite (cm_p _ _ _ Cm b p v Hpb Hv). f_equal. unfold next_p. rewrite Hw. cbn [v_add QcNum]. match goal with |- ?a = ?b => change (@eq Qc a b) end. ring. }
  split; [congruence|]. split.
  { rewrite (cm_r _ _ _ Cm b p r v Hpb Hr Hv), Hr. unfold next_r. now rewrite Hn. }
  split.
  { unfold halted. rewrite (halted_get s' b p Ep). f_equal. unfold halted_at, threshold. rewrite (cm_eps _ _ _ Cm). exact Hh. }
  split.
  { intros m Hm. rewrite (cm_i _ _ _ Cm b p m Hpb Hm). unfold next_i. now rewrite Hh. }
  intros k t t' Ht Ht' l a a' Ha Ha' R HR j Hj.
  destruct (cm_acc _ _ _ Cm k t Ht) as (u & t2 & Hu & Ht2 & [_ Al] & Len & Eff). assert (t2 = t') by congruence. subst t2.
  destruct (proj1 (iterate_ok_iff s h W P Ah) (ex_intro _ _ E)) as (_ & _ & Rd).
  destruct (Rd k t Ht) as (u' & Hu' & _ & CA). assert (u' = u) by congruence. subst u'. apply Forall2_nth in CA as [_ CA].
  destruct (nth_error_same_length (leaves t) (leaves u) l a) as [ul Hul]; [now symmetry|exact Ha|].
  destruct (CA l a ul Ha Hul) as [Sh _].
  assert (Sa : a_shape a' = a_shape a).
  { apply (f_equal (fun x => nth_error x l)) in Al. rewrite !nth_error_map, Ha', Ha in Al. cbn in Al. injection Al as Al _. exact Al. }
  pose proof (Forall_nth _ _ _ _ (wf_acc _ W k t Ht) Ha) as [Wa _].
  pose proof (Forall_nth _ _ _ _ (P k u Hu) Hul) as Wu.
  pose proof (Forall_nth _ _ _ _ (wf_acc _ W' k t' Ht') Ha') as [Wa' _].
  unfold awf, twf in Wa, Wu, Wa'. fold (a_data a) (a_shape a) in Wa. fold (a_data ul) (a_shape ul) in Wu. fold (a_data a') (a_shape a') in Wa'.
  destruct (a.[j]) as [x|] eqn:Hx.
  - destruct (nth_error_same_length (a_data a) (a_data ul) j x) as [z Hz]; [congruence|exact Hx|].
    subst b. rewrite (Eff l a ul a' Ha Hul Ha' R HR j x z p v Hx Hz Hpb Hv). f_equal. unfold next_a. rewrite Hh, Hw. cbn [v_add v_mul QcNum].
    match goal with |- ?a = ?b => change (@eq Qc a b) end. ring.
  - apply nth_error_None. apply nth_error_None in Hx. rewrite Wa'. rewrite Wa in Hx. congruence.
Qed.
Print Assumptions C99_exact.

(** ** IEEE-754 arithmetic *)
Section ZeroStep.
  Context {prec emax : Z} {Hp : Prec_gt_0 prec} {Hm : Prec_lt_emax prec emax}.
  Notation F := (FloatNum prec emax).
  Notation bf := (binary_float prec emax).
  Lemma scaled_zero (s : state F) (v : val F) : dep_ok prec emax (depression_constant s) -> Bleb (v : bf) f_zero = true ->
    exists sg, scaled s v = (B754_zero sg : bf).
  Proof.
    intros [Fd _] Le. unfold scaled, clip01. cbn [v_of_scl v_mul v_min v_max v_one v_zero FloatNum].
    rewrite (clip_at_most_zero prec emax (v : bf) Le). now apply mul_zero_r.
  Qed.
  Lemma halts_zero (s : state F) (p v : val F) sg : scaled s v = (B754_zero sg : bf) -> halted_at s p = false -> halts_now s p v = false.
  Proof.
    intros E H. unfold halts_now. rewrite E. cbn [v_ltb v_add FloatNum]. rewrite (same_number_ltb prec emax _ _ _ (add_zero_l prec emax p sg)). exact H.
  Qed.
End ZeroStep.

(** The entries of the element whose update is infinite or NaN become NaN, although the update has weight zero. *)
Theorem C99_refuted (prec emax : Z) {Hp : Prec_gt_0 prec} {Hm : Prec_lt_emax prec emax} (s : state (FloatNum prec emax)) h s' b v :
  wf s -> wf_pending s -> awf h -> iterate_act s h = Ok s' -> dep_ok prec emax (depression_constant s) ->
  halted s b = Some false -> h.[b] = Some v -> Bleb (v : binary_float prec emax) f_zero = true ->
  forall k t u t', dget k (accumulators s) = Some t -> dget k (updates s) = Some u -> dget k (accumulators s') = Some t' ->
    forall l a ul a', nth_error (leaves t) l = Some a -> nth_error (leaves u) l = Some ul -> nth_error (leaves t') l = Some a' ->
    forall R, a_shape a = batch_shape s ++ R -> forall j x y, j / size R = b -> a.[j] = Some x -> ul.[j] = Some y ->
      is_finite (y : binary_float prec emax) = false -> a'.[j] = Some (B754_nan : binary_float prec emax).
Proof.
  intros W P Ah E Hd Hh Hv Le k t u t' Ht Hu Ht' l a ul a' Ha Hul Ha' R HR j x y Hj Hx Hy Nf.
  destruct (iterate_committed s h s' W P Ah E) as (Cm & _). apply halted_get_inv in Hh as (p & Hpb & Hh). symmetry in Hh.
  destruct (scaled_zero s v Hd Le) as [sg Sc]. pose proof (halts_zero s p v sg Sc Hh) as Hn.
  destruct (cm_acc _ _ _ Cm k t Ht) as (u' & t2 & Hu' & Ht2 & _ & _ & Eff). assert (u' = u) by congruence. assert (t2 = t') by congruence. subst u' t2 b.
  rewrite (Eff l a ul a' Ha Hul Ha' R HR j x y p v Hx Hy Hpb Hv). f_equal. unfold next_a, weight. rewrite Hh, Hn, Sc. cbn [v_add v_mul FloatNum].
  destruct (y : binary_float prec emax) as [s0|s0| |s0 m e B]; try discriminate; destruct (x : binary_float prec emax); reflexivity.
Qed.
Print Assumptions C99_refuted.

(** With finite updates nothing but the count changes (up to the sign of zeros). *)
Theorem C99_partial (prec emax : Z) {Hp : Prec_gt_0 prec} {Hm : Prec_lt_emax prec emax} (s : state (FloatNum prec emax)) h s' b v :
  wf s -> wf_pending s -> awf h -> iterate_act s h = Ok s' -> dep_ok prec emax (depression_constant s) ->
  halted s b = Some false -> h.[b] = Some v -> Bleb (v : binary_float prec emax) f_zero = true ->
  (exists p p', (probabilities s).[b] = Some p /\ (probabilities s').[b] = Some p' /\ same_number (p' : binary_float prec emax) p) /\
  (residuals s').[b] = (residuals s).[b] /\ halted s' b = Some false /\
  (forall n, (iterations s).[b] = Some n -> (iterations s').[b] = Some (v_add (FloatNum prec emax) n (v_one (FloatNum prec emax)))) /\
  forall k t u t', dget k (accumulators s) = Some t -> dget k (updates s) = Some u -> dget k (accumulators s') = Some t' ->
    forall l a ul a', nth_error (leaves t) l = Some a -> nth_error (leaves u) l = Some ul -> nth_error (leaves t') l = Some a' ->
    forall R, a_shape a = batch_shape s ++ R -> forall j x y, j / size R = b -> a.[j] = Some x -> ul.[j] = Some y ->
      is_finite (y : binary_float prec emax) = true -> exists x', a'.[j] = Some x' /\ same_number (x' : binary_float prec emax) x.
Proof.
  intros W P Ah E Hd Hh Hv Le.
  destruct (iterate_committed s h s' W P Ah E) as (Cm & _). apply halted_get_inv in Hh as (p & Hpb & Hh). symmetry in Hh.
  destruct (scaled_zero s v Hd Le) as [sg Sc]. pose proof (halts_zero s p v sg Sc Hh) as Hn.
  destruct (element_exists s b p W Hpb) as (r & n & (_ & Hr & _)).
  assert (Ep := cm_p _ _ _ Cm b p v Hpb Hv).
  assert (Sn : same_number (next_p s p v : binary_float prec emax) p).
  { unfold next_p, weight. rewrite Hn, Sc. cbn [v_add FloatNum]. apply add_zero_r. }
  split; [eauto|]. split.
  { rewrite (cm_r _ _ _ Cm b p r v Hpb Hr Hv), Hr. unfold next_r. now rewrite Hn. }
  split.
  { rewrite (halted_of s' b _ Ep). f_equal. unfold halted_at, threshold. rewrite (cm_eps _ _ _ Cm). fold (threshold s). cbn [v_ltb FloatNum].
    rewrite (same_number_ltb prec emax _ _ _ Sn). exact Hh. }
  split.
  { intros m Hm'. rewrite (cm_i _ _ _ Cm b p m Hpb Hm'). unfold next_i. now rewrite Hh. }
  intros k t u t' Ht Hu Ht' l a ul a' Ha Hul Ha' R HR j x y Hj Hx Hy Fy.
  destruct (cm_acc _ _ _ Cm k t Ht) as (u' & t2 & Hu' & Ht2 & _ & _ & Eff). assert (u' = u) by congruence. assert (t2 = t') by congruence. subst u' t2 b.
  rewrite (Eff l a ul a' Ha Hul Ha' R HR j x y p v Hx Hy Hpb Hv). eexists. split; [reflexivity|]. unfold next_a, weight. rewrite Hh, Hn, Sc. cbn [v_add v_mul FloatNum].
  destruct (mul_zeros prec emax (B754_zero sg) (y : binary_float prec emax) (ex_intro _ sg eq_refl) Fy) as [sg' ->]. apply add_zero_r.
Qed.
Print Assumptions C99_partial.

(** ** Cases *)
(** Both elements are running, element 0 gets the halting value -3 and an infinite update, element 1 the value 0 and the update 7. *)
Definition zero32 : list (call N32) := step32 (f32 1 3) (f32 1 10) ++ [CCache (N := N32) "x" (Leaf (arr32 [2] [B754_infinity true; f32 7 1]))].
Example C99_case : let s := run (ctl32 (py_div 1 10)) zero32 in let h := arr32 [2] [f32 (-3) 1; f32 0 1] in
  wf s /\ wf_pending s /\ awf h /\ dep_ok 24 128 (depression_constant s) /\ halted s 0 = Some false /\ halted s 1 = Some false /\
  Bleb (f32 (-3) 1 : binary_float 24 128) f_zero = true /\ Bleb (f32 0 1 : binary_float 24 128) f_zero = true /\
  match iterate_act s h with
  | Ok s' => map bits (flat_map leaves (map snd (accumulators s'))) = [[SpecFloat.S754_nan; B2SF (f32 2 10)]] /\ bits (probabilities s') = bits (probabilities s)
  | Err _ => False
  end.
Proof.
  assert (Se : BuilderFacts.eps_sane (N := N32) (py_div 1 10)) by (split; vm_compute; reflexivity).
  destruct (ctl32_ok _ Se) as (W & Fr & P). cbv zeta. destruct (run_wf _ zero32 W P) as [W' P']; [repeat constructor|].
  split; [exact W'|]. split; [exact P'|]. split; [reflexivity|].
  split; [split; [vm_compute; reflexivity|apply (leb_real (f_zero (prec := 24) (emax := 128))); vm_compute; reflexivity]|].
  do 4 (split; [vm_compute; reflexivity|]). vm_compute. split; reflexivity.
Qed.
