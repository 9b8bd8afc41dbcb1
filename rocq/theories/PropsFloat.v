(** * Properties of controllers in IEEE-754 arithmetic (C02, C21, C29, C60, C61 and the floating
    point part of C03, C04, C07, C33): statements, and cases that meet the hypotheses.

    Vocabulary: FloatNum.v (the arithmetic: any binary format, round to nearest even, Python
    floats are binary64), FloatSpec.v, ElementSpec.v, History.v. [B2R x] is the real number the
    float [x] stands for. *)
From Coq Require Import ZArith Reals Lia Lra Psatz.
From Flocq Require Import Core BinarySingleNaN.
From Verif Require Import Base PyTree Tensor Num FloatNum FloatSpec Utils States Controller Builder Viewer Editor
  Wf Spec History ElementSpec BuilderSpec ViewerSpec EditorSpec.
From Verif Require Import BaseFacts ControllerFacts IterateFacts ResetFacts HistoryFacts AgreeFacts ExactFacts StepFacts
  BuilderFacts ViewerFacts EditorFacts GravesFacts ElementFacts FloatFacts FloatFacts2 FloatFacts3 FloatFacts4.
From Verif Require PropsViewer PropsEditor.
From Verif Require Import PropsController.
Close Scope R_scope. Close Scope Z_scope. Open Scope string_scope. Open Scope list_scope. Open Scope nat_scope.

Section Formats.
  Context {prec emax : Z} {Hp : Prec_gt_0 prec} {Hm : Prec_lt_emax prec emax}.
  Notation N := (FloatNum prec emax).
  Notation bf := (binary_float prec emax).

  Definition not_nan (x : val N) : Prop := is_nan (x : bf) = false.
  (** No halting value is NaN. *)
  Definition no_nan (c : call N) : Prop := halting_values not_nan c.
  (** Every probability is a finite number between zero and one. *)
  Definition probabilities_ok (s : state N) : Prop := forall i p, (probabilities s).[i] = Some p -> funit (p : bf).

  Section Runs.
    Context (H2 : (2 <= prec)%Z) (s : state N) (He : eps_ok (epsilon s)) (Hd : dep_ok prec emax (depression_constant s)).
    Context (W : wf s) (P : wf_pending s) (Hs : probabilities_ok s).
    Lemma run_unit cs : Forall call_wf cs -> Forall no_nan cs -> probabilities_ok (run s cs).
    Proof.
      intros F G i p Hpi. destruct (run_wf s cs W P F) as [W' _].
      destruct (element_exists (run s cs) i p W' Hpi) as (r & n & El).
      apply (run_element not_nan (fun p _ _ => funit (p : bf)) s) with (cs := cs) (s := s) (i := i) (r := r) (n := n); auto.
      - intros x _ _ v U Hv. now apply (step_unit prec emax H2 s He Hd x v).
      - intros x _ _ U. now apply kept_unit.
      - intros j x _ _ (Hx & _). now apply Hs in Hx.
    Qed.
    Lemma run_settings cs : Forall call_wf cs ->
      epsilon (run s cs) = epsilon s /\ depression_constant (run s cs) = depression_constant s.
    Proof.
      intros F. pose proof (run_frame s cs W P F) as Fr. split; [apply (sf_eps _ _ Fr)|apply (sf_dep _ _ Fr)].
    Qed.
  End Runs.
  Lemma halted_above (H2 : (2 <= prec)%Z) (s s' : state N) i (p : bf) :
    eps_ok (epsilon s) -> epsilon s' = epsilon s -> (probabilities s').[i] = Some (p : val N) -> halted s' i = Some true ->
    is_finite p = true -> (B2R (threshold s : bf) < B2R p)%R.
  Proof.
    intros He E Hpi Ht Fi. assert (X : halted_at s' p = true).
    { unfold halted in Ht. rewrite (halted_get s' i p Hpi) in Ht. congruence. }
    unfold halted_at, threshold in X. rewrite E in X. fold (threshold s) in X. cbn [v_ltb FloatNum] in X.
    apply (ltb_R prec emax (threshold s) p) in X; auto. apply (threshold_unit prec emax H2 s He).
  Qed.
End Formats.

Lemma values_ok {N : numsys} (okv : val N -> Prop) i cs : Forall (halting_values okv) cs -> Forall (fun c => Forall okv (value_of i c)) cs.
Proof.
  intros G. apply Forall_forall. intros c Hc. rewrite Forall_forall in G. specialize (G c Hc). unfold halting_values in G.
  destruct c as [|h|]; cbn [value_of]; auto. destruct (h.[i]) as [v|] eqn:Hv; auto. constructor; [|constructor].
  exact (Forall_nth _ _ _ _ G Hv).
Qed.

(** ** C02 *)
Theorem C02_float_probability (prec emax : Z) {Hp : Prec_gt_0 prec} {Hm : Prec_lt_emax prec emax}
  (s : state (FloatNum prec emax)) cs :
  (2 <= prec)%Z -> wf s -> wf_pending s -> Forall call_wf cs -> Forall no_nan cs ->
  eps_ok (epsilon s) -> dep_ok prec emax (depression_constant s) -> probabilities_ok s ->
  (** always a finite number between zero and one *)
  probabilities_ok (run s cs) /\
  (** never decreasing in an iteration, and exactly 1.0 as soon as the element is halted *)
  (forall h s' i p p', awf h -> Forall not_nan (a_data h) -> iterate_act (run s cs) h = Ok s' ->
     (probabilities (run s cs)).[i] = Some p -> (probabilities s').[i] = Some p' ->
     (B2R (p : binary_float prec emax) <= B2R (p' : binary_float prec emax))%R /\
     (halted s' i = Some true -> p' = (Bone : binary_float prec emax))).
Proof.
  intros H2 W P F G He Hd Hs. assert (U := run_unit H2 s He Hd W P Hs cs F G). split; [exact U|].
  intros h s' i p p' A Hh H Hpi Hpi'. destruct (run_wf s cs W P F) as [W1 P1].
  destruct (run_settings s W P cs F) as [E1 E2].
  assert (He1 : eps_ok (epsilon (run s cs))) by now rewrite E1.
  assert (Hd1 : dep_ok prec emax (depression_constant (run s cs))) by now rewrite E2.
  destruct (iterate_committed (run s cs) h s' W1 P1 A H) as (C & _ & _).
  destruct (proj1 (iterate_ok_iff _ h W1 P1 A) (ex_intro _ _ H)) as (Hsh & _ & _).
  destruct (batch_get (run s cs) h i p W1 A Hsh Hpi) as [v Hv].
  assert (Nv := Forall_nth _ _ _ _ Hh Hv). assert (Up := U i p Hpi).
  rewrite (cm_p _ _ _ C i p v Hpi Hv) in Hpi'. apply Some_inj in Hpi'. subst p'.
  split; [exact (proj2 (step_unit prec emax H2 (run s cs) He1 Hd1 p v Up Nv))|].
  intros Ht. destruct (halts_now (run s cs) p v) eqn:Eh.
  - exact (proj2 (halting_step prec emax H2 (run s cs) p v Up Eh)).
  - exfalso. destruct (running_step prec emax H2 (run s cs) He1 Hd1 p v Up Nv Eh) as (Fi & _ & _ & L).
    pose proof (halted_above H2 (run s cs) s' i _ He1 (cm_eps _ _ _ C) (cm_p _ _ _ C i p v Hpi Hv) Ht Fi). lra.
Qed.
Print Assumptions C02_float_probability.

(** ** C03, C04 in floating point *)
Theorem C03_float_frozen_forever (prec emax : Z) {Hp : Prec_gt_0 prec} {Hm : Prec_lt_emax prec emax}
  (s : state (FloatNum prec emax)) cs b :
  (2 <= prec)%Z -> wf s -> wf_pending s -> Forall call_wf cs -> Forall no_nan cs -> Forall (fun c => c <> CReset) cs ->
  eps_ok (epsilon s) -> dep_ok prec emax (depression_constant s) -> probabilities_ok s ->
  halted s b = Some true -> same_element b s (run s cs).
Proof.
  intros H2 W P F G R He Hd Hs H. apply halted_get_inv in H as (p & Hpb & Hh). symmetry in Hh.
  (* the element never leaves the unit interval, so restrict attention to such elements *)
  revert s W P He Hd Hs p Hpb Hh. induction cs as [|c cs IH]; intros s W P He Hd Hs p Hpb Hh; [now apply same_element_refl|].
  inversion F; inversion G; inversion R; subst. rewrite run_cons.
  destruct (after_wf s c W P) as [W' P']; auto. pose proof (after_frame s c W P ltac:(assumption)) as Fr.
  assert (Hs' : probabilities_ok (after s c)) by (apply (run_unit H2 s He Hd W P Hs [c]); repeat constructor; auto).
  assert (E1 := sf_eps _ _ Fr). assert (E2 := sf_dep _ _ Fr).
  destruct (same_settings s (after s c) E1 E2) as (_ & _ & _ & _ & N5 & _).
  assert (Len : exists p', (probabilities (after s c)).[b] = Some p').
  { destruct (nth_error_same_length (a_data (probabilities s)) (a_data (probabilities (after s c))) b p) as [p' X]; eauto.
    rewrite (wf_batch_len s W), (wf_batch_len _ W'). pose proof (sf_p _ _ Fr) as X. unfold sig in X.
    injection X as X _. unfold batch_shape. congruence. }
  destruct Len as [p' Hp'].
  destruct (element_exists _ b p' W' Hp') as (r' & n' & El).
  destruct (after_element s c b p' r' n' W P ltac:(assumption) El) as (p0 & r & n & (Hp0 & _) & Cases).
  assert (p0 = p) by congruence. subst p0.
  assert (Hh' : halted_at (after s c) p' = true).
  { rewrite N5. destruct Cases as [(_ & -> & _)|[(h & v & -> & _ & Hv & -> & _)|(-> & _)]]; [exact Hh| |congruence].
    apply (step_stays prec emax H2 s He Hd p v); auto; [now apply (Hs b)|].
    match goal with Q : no_nan (CIter h) |- _ => exact (Forall_nth _ _ _ _ Q Hv) end. }
  apply (same_element_trans b s (after s c)); auto.
  - unfold after in *. destruct (apply_call s c) as [s1|e] eqn:E; [|now apply same_element_refl].
    destruct c as [name item|h|]; cbn [apply_call call_wf] in *; [| |congruence].
    + apply cache_same in E. subst s1. now apply same_element_refl.
    + now apply (iterate_frozen s h s1 b p).
  - apply (IH ltac:(assumption) ltac:(assumption) ltac:(assumption)) with (p := p'); auto.
    + now rewrite E1.
    + now rewrite E2.
Qed.
Print Assumptions C03_float_frozen_forever.
Theorem C04_float_halting_is_permanent (prec emax : Z) {Hp : Prec_gt_0 prec} {Hm : Prec_lt_emax prec emax}
  (s : state (FloatNum prec emax)) cs i :
  (2 <= prec)%Z -> wf s -> wf_pending s -> Forall call_wf cs -> Forall no_nan cs -> Forall (fun c => c <> CReset) cs ->
  eps_ok (epsilon s) -> dep_ok prec emax (depression_constant s) -> probabilities_ok s ->
  halted s i = Some true -> halted (run s cs) i = Some true.
Proof.
  intros H2 W P F G R He Hd Hs H. apply halted_get_inv in H as (p & Hpi & Hh). symmetry in Hh.
  destruct (run_wf s cs W P F) as [W' _]. pose proof (run_frame s cs W P F) as Fr.
  destruct (nth_error_same_length (a_data (probabilities s)) (a_data (probabilities (run s cs))) i p) as [p' Hp']; auto.
  { rewrite (wf_batch_len s W), (wf_batch_len _ W'). pose proof (sf_p _ _ Fr) as X. unfold sig in X.
    injection X as X _. unfold batch_shape. congruence. }
  unfold halted. rewrite (halted_get _ i p' Hp'). f_equal.
  destruct (same_settings s (run s cs) (sf_eps _ _ Fr) (sf_dep _ _ Fr)) as (_ & _ & _ & _ & N5 & _). rewrite N5.
  destruct (element_exists (run s cs) i p' W' Hp') as (r & n & El).
  enough (X : funit (p' : binary_float prec emax) /\ halted_at s p' = true) by apply X.
  refine (run_element_values not_nan (fun _ p _ _ => funit (p : binary_float prec emax) /\ halted_at s p = true) s
            _ i cs s [] eq_refl eq_refl W P F R _ _ p' r n El).
  - intros _ x _ _ v [U Hx] Hv. split; [now apply (step_unit prec emax H2 s He Hd x v)|].
    now apply (step_stays prec emax H2 s He Hd x v).
  - now apply values_ok.
  - intros x y z (Hx & _). split; [now apply (Hs i)|]. congruence.
Qed.
Print Assumptions C04_float_halting_is_permanent.

(** ** C07 in floating point: the residual is the correctly rounded remainder *)
Theorem C07_float_residual (prec emax : Z) {Hp : Prec_gt_0 prec} {Hm : Prec_lt_emax prec emax}
  (s : state (FloatNum prec emax)) cs :
  (2 <= prec)%Z -> wf s -> wf_pending s -> Forall call_wf cs -> Forall no_nan cs ->
  eps_ok (epsilon s) -> dep_ok prec emax (depression_constant s) -> probabilities_ok s ->
  (forall i r, (residuals s).[i] = Some r -> funit (r : binary_float prec emax)) ->
  (forall i r, (residuals (run s cs)).[i] = Some r -> funit (r : binary_float prec emax)) /\
  (forall h s' i p r', awf h -> Forall not_nan (a_data h) -> iterate_act (run s cs) h = Ok s' ->
     (probabilities (run s cs)).[i] = Some p -> (residuals s').[i] = Some r' ->
     halted (run s cs) i = Some false -> halted s' i = Some true ->
     is_finite (r' : binary_float prec emax) = true /\
     B2R (r' : binary_float prec emax) =
       round radix2 (SpecFloat.fexp prec emax) ZnearestE (1 - B2R (p : binary_float prec emax))%R).
Proof.
  intros H2 W P F G He Hd Hs Hr. assert (U := run_unit H2 s He Hd W P Hs cs F G).
  destruct (run_wf s cs W P F) as [W1 P1]. split.
  - intros i r Hri.
    destruct (nth_error_same_length (a_data (residuals (run s cs))) (a_data (probabilities (run s cs))) i r) as [p Hpi]; auto.
    { rewrite (wf_batch_len _ W1). pose proof (wf_r _ W1) as X. unfold awf, twf in X.
      fold (a_shape (residuals (run s cs))) in X. rewrite (wf_r_shape _ W1) in X. exact X. }
    destruct (element_exists (run s cs) i p W1 Hpi) as (r0 & n & El). pose proof El as (_ & Hr0 & _).
    assert (r0 = r) by congruence. subst r0.
    enough (X : funit (p : binary_float prec emax) /\ funit (r : binary_float prec emax)) by apply X.
    apply (run_element not_nan (fun p r _ => funit (p : binary_float prec emax) /\ funit (r : binary_float prec emax)) s)
      with (cs := cs) (s := s) (i := i) (n := n); auto.
    + intros x y _ v [Ux Uy] Hv. split; [now apply (step_unit prec emax H2 s He Hd x v)|].
      unfold next_r. destruct (halts_now s x v && negb (halted_at s x)); [|exact Uy].
      exact (proj1 (sub_one prec emax H2 x Ux)).
    + intros x y _ [Ux Uy]. split; now apply kept_unit.
    + intros j x y _ (Hx & Hy & _). split; [now apply Hs in Hx|now apply Hr in Hy].
  - intros h s' i p r' A Hh H Hpi Hri' Hf Ht.
    destruct (run_settings s W P cs F) as [E1 E2].
    assert (He1 : eps_ok (epsilon (run s cs))) by now rewrite E1.
    assert (Hd1 : dep_ok prec emax (depression_constant (run s cs))) by now rewrite E2.
    destruct (iterate_committed (run s cs) h s' W1 P1 A H) as (C & _ & _).
    destruct (proj1 (iterate_ok_iff _ h W1 P1 A) (ex_intro _ _ H)) as (Hsh & _ & _).
    destruct (batch_get (run s cs) h i p W1 A Hsh Hpi) as [v Hv].
    destruct (element_exists (run s cs) i p W1 Hpi) as (r & n & (_ & Hri & _)).
    assert (Nv := Forall_nth _ _ _ _ Hh Hv). assert (Up := U i p Hpi).
    rewrite (cm_r _ _ _ C i p r v Hpi Hri Hv) in Hri'. apply Some_inj in Hri'. subst r'.
    assert (Hf' : halted_at (run s cs) p = false) by (unfold halted in Hf; rewrite (halted_get _ i p Hpi) in Hf; congruence).
    assert (Eh : halts_now (run s cs) p v = true).
    { destruct (halts_now (run s cs) p v) eqn:Eh; [reflexivity|exfalso].
      destruct (running_step prec emax H2 (run s cs) He1 Hd1 p v Up Nv Eh) as (Fi & _ & _ & L).
      pose proof (halted_above H2 (run s cs) s' i _ He1 (cm_eps _ _ _ C) (cm_p _ _ _ C i p v Hpi Hv) Ht Fi). lra. }
    unfold next_r. rewrite Eh, Hf'. cbn [andb negb].
    destruct (sub_one prec emax H2 p Up) as [[X1 _] X2]. split; [exact X1|exact X2].
Qed.
Print Assumptions C07_float_residual.

(** ** C21 *)
Lemma fresh_unit {prec emax : Z} {Hp : Prec_gt_0 prec} {Hm : Prec_lt_emax prec emax} (s : state (FloatNum prec emax)) :
  fresh s -> probabilities_ok s.
Proof.
  intros (F & _) i p Hpi. pose proof (Forall_nth _ _ _ _ F Hpi) as X. cbv beta in X. subst p. apply (zero_unit prec emax).
Qed.
Lemma unit_eps_sane {prec emax : Z} {Hp : Prec_gt_0 prec} {Hm : Prec_lt_emax prec emax} (eps : pyfloat) :
  is_finite eps = true -> (0 < B2R eps < 1)%R -> eps_sane (N := FloatNum prec emax) eps.
Proof.
  intros Fe [A B]. split; cbn [s_leb s_one s_zero FloatNum]; rewrite Bleb_correct; auto; try apply is_finite_Bone.
  - rewrite Bone_correct. now apply Rle_bool_false.
  - now apply Rle_bool_false.
Qed.
(** An epsilon too small for the format is accepted, and then no element ever halts, whatever
    accumulators are defined and whatever is iterated. [lost_epsilon] (FloatSpec.v) is the exact bound:
    2^-25 + 2^-54 for float32, 2^-54 for float64; C21_partial treats everything above it. *)
Theorem C21_refuted (prec emax : Z) {Hp : Prec_gt_0 prec} {Hm : Prec_lt_emax prec emax} (eps dep : pyfloat) b cd mode :
  (2 <= prec <= 53)%Z -> prec <> 52%Z -> is_finite eps = true -> (0 < B2R eps)%R -> (B2R eps <= lost_epsilon prec)%R ->
  is_floating (default cd DF32) = true -> Forall (fun z => 0 <= z)%Z (batch_dims b) -> dep_ok prec emax dep ->
  exists core, new_builder_with (N := FloatNum prec emax) (Some mode) b cd eps dep = Ok core /\
    forall defs cs i, Forall bcall_wf defs -> Forall call_wf cs -> Forall no_nan cs ->
      halted (run (brun core defs) cs) i <> Some true.
Proof.
  intros [H2 H53] H52 Fe Pe Le Hf Hb Hd.
  assert (L1 : (B2R eps < 1)%R).
  { eapply Rle_lt_trans; [exact Le|]. unfold lost_epsilon.
    assert (B54 : (bpow radix2 (-54) < bpow radix2 (-1))%R) by (apply bpow_lt; lia).
    assert (Bp : (bpow radix2 (- prec - 1) < bpow radix2 (-1))%R) by (apply bpow_lt; lia).
    change (bpow radix2 (-1)) with (/ 2)%R in *. destruct (prec =? 53)%Z; lra. }
  assert (Hw : new_builder_with (N := FloatNum prec emax) (Some mode) b cd eps dep =
               Ok (empty_state (shape_of (batch_dims b)) (core cd) (eps : scl (FloatNum prec emax)) dep mode)).
  { apply new_builder_with_ok. split; [exact Hf|]. split; [|split; [exact Hb|reflexivity]]. now apply unit_eps_sane. }
  eexists. split; [exact Hw|]. intros defs cs i D F G H.
  destruct (new_builder_wf _ _ _ _ _ _ Hw) as [W0 F0].
  destruct (brun_wf _ defs W0 F0 D) as (W & Fr & Ee & Ed & _).
  match type of H with context [run ?c cs] => set (s := c) in * end.
  assert (P : wf_pending s) by now apply Samples.fresh_wf_pending.
  assert (Ee' : epsilon s = eps) by (rewrite Ee; reflexivity). assert (Ed' : depression_constant s = dep) by (rewrite Ed; reflexivity).
  assert (He : eps_ok (epsilon s)) by (rewrite Ee'; split; [exact Fe|lra]).
  assert (Hd' : dep_ok prec emax (depression_constant s)) by now rewrite Ed'.
  pose proof (run_unit H2 s He Hd' W P (fresh_unit s Fr) cs F G) as U.
  apply halted_get_inv in H as X. destruct X as (p & Hpi & _). destruct (U i p Hpi) as [Fp Bp].
  pose proof (halted_above H2 s (run s cs) i p He (proj1 (run_settings s W P cs F)) Hpi H Fp) as L.
  rewrite (threshold_is_one prec emax H2 s H53 H52 He) in L by now rewrite Ee'. rewrite one_R in L. lra.
Qed.
Print Assumptions C21_refuted.
(** A NaN epsilon is accepted, and then no element ever halts, in any format, whatever is done. *)
Theorem C21_refuted_nan (prec emax : Z) {Hp : Prec_gt_0 prec} {Hm : Prec_lt_emax prec emax} (dep : pyfloat) b cd mode :
  is_floating (default cd DF32) = true -> Forall (fun z => 0 <= z)%Z (batch_dims b) ->
  exists core, new_builder_with (N := FloatNum prec emax) (Some mode) b cd (B754_nan : pyfloat) dep = Ok core /\
    forall defs cs i, Forall bcall_wf defs -> Forall call_wf cs -> halted (run (brun core defs) cs) i <> Some true.
Proof.
  intros Hf Hb.
  assert (Hw : new_builder_with (N := FloatNum prec emax) (Some mode) b cd (B754_nan : pyfloat) dep =
               Ok (empty_state (shape_of (batch_dims b)) (core cd) (B754_nan : scl (FloatNum prec emax)) dep mode)).
  { apply new_builder_with_ok. split; [exact Hf|]. split; [|split; [exact Hb|reflexivity]]. split; reflexivity. }
  eexists. split; [exact Hw|]. intros defs cs i D F H.
  destruct (new_builder_wf _ _ _ _ _ _ Hw) as [W0 F0].
  destruct (brun_wf _ defs W0 F0 D) as (W & Fr & Ee & _).
  match type of H with context [run ?c cs] => set (s := c) in * end.
  assert (P : wf_pending s) by now apply Samples.fresh_wf_pending.
  apply halted_get_inv in H as (p & _ & Hh).
  assert (E : epsilon (run s cs) = (B754_nan : pyfloat)) by (rewrite (sf_eps _ _ (run_frame s cs W P F)); exact Ee).
  unfold halted_at, threshold in Hh. rewrite E in Hh. cbn in Hh. discriminate.
Qed.
Print Assumptions C21_refuted_nan.
(** Every epsilon above that bound works: the threshold is below one, and an iteration whose effective halting probability is one or more halts the element. *)
Theorem C21_partial (prec emax : Z) {Hp : Prec_gt_0 prec} {Hm : Prec_lt_emax prec emax} (s : state (FloatNum prec emax)) cs :
  (2 <= prec <= 53)%Z -> wf s -> wf_pending s -> Forall call_wf cs -> Forall no_nan cs ->
  eps_ok (epsilon s) -> (lost_epsilon prec < B2R (epsilon s : pyfloat))%R ->
  dep_ok prec emax (depression_constant s) -> (1 <= B2R (f_of_py (depression_constant s : pyfloat) : binary_float prec emax))%R ->
  probabilities_ok s ->
  forall h s' i v, awf h -> iterate_act (run s cs) h = Ok s' -> h.[i] = Some v ->
    is_finite (v : binary_float prec emax) = true -> (1 <= B2R (v : binary_float prec emax))%R ->
    halted s' i = Some true.
Proof.
  intros [H2 H53] W P F G He Hle Hd Hd1 Hs h s' i v A H Hv Fv Bv.
  destruct (run_wf s cs W P F) as [W1 P1]. destruct (run_settings s W P cs F) as [E1 E2].
  destruct (iterate_committed (run s cs) h s' W1 P1 A H) as (C & _ & _).
  destruct (proj1 (iterate_ok_iff _ h W1 P1 A) (ex_intro _ _ H)) as (Hsh & _ & _).
  assert (exists p, (probabilities (run s cs)).[i] = Some p) as [p Hpi].
  { destruct (nth_error_same_length (a_data h) (a_data (probabilities (run s cs))) i v) as [p X]; eauto.
    rewrite (wf_batch_len _ W1). unfold awf, twf in A. fold (a_data h) (a_shape h) in A. congruence. }
  assert (Up := run_unit H2 s He Hd W P Hs cs F G i p Hpi).
  destruct (same_settings s (run s cs) E1 E2) as (N1 & _ & _ & _ & N5 & N6).
  assert (T := threshold_below_one prec emax H2 s H53 He Hle). assert (Tu := threshold_unit prec emax H2 s He).
  assert (Hc : f_min f_one (f_max f_zero (v : binary_float prec emax)) = f_one).
  { pose proof (clip_unit prec emax (v : binary_float prec emax) (finite_not_nan prec emax v Fv)) as [Fc Bc].
    apply eq_one; [exact Fc|]. unfold f_min in *. rewrite (finite_not_nan _ _ f_one (one_finite prec emax)) in *.
    destruct (f_max_0 prec emax v (finite_not_nan prec emax v Fv)) as [(_ & E & Pos)|[E|E]].
    - rewrite E in *. rewrite (finite_not_nan prec emax v Fv) in *. destruct (Bltb v f_one) eqn:L; [|apply one_R].
      apply ltb_R in L; [|exact Fv|apply one_finite]. rewrite one_R in L. lra.
    - exfalso. unfold f_max in E. cbn [is_nan f_zero] in E. rewrite (finite_not_nan prec emax v Fv) in E.
      destruct (Bltb f_zero v) eqn:L.
      + rewrite E in Bv. cbn in Bv. lra.
      + apply (ltb_R_false prec emax f_zero v) in L; [|reflexivity|exact Fv]. cbn in L. lra.
    - rewrite E in Fv. discriminate. }
  assert (Sc : scaled s v = (f_of_py (depression_constant s : pyfloat) : binary_float prec emax)).
  { unfold scaled, clip01. cbn [v_mul v_of_scl v_min v_max v_one v_zero FloatNum]. rewrite Hc. apply mul_one_r. }
  assert (Hh : halts_now s p v = true).
  { unfold halts_now. rewrite Sc. cbn [v_ltb v_add FloatNum].
    destruct Up as [Fp [Ap Bp]].
    destruct (add_nonneg prec emax (f_of_py (depression_constant s : pyfloat)) p Hd (conj Fp Ap)) as [[Fa Ra]|I].
    - apply ltb_R; [apply Tu|exact Fa|]. rewrite Ra. apply Rlt_le_trans with 1%R; [exact T|].
      apply rnd_ge_fmt; [exact Hp|now apply format_1|lra].
    - rewrite I. destruct Tu as [Tf _]. revert Tf. generalize (threshold s : binary_float prec emax).
      intros [[|]|[|]| |[|] m e Hb]; cbn; intros; try discriminate; reflexivity. }
  assert (E3 : next_p (run s cs) p v = (f_one : binary_float prec emax)).
  { rewrite N1. exact (proj2 (halting_step prec emax H2 s p v Up Hh)). }
  unfold halted. rewrite (halted_get s' i (next_p (run s cs) p v)) by (apply (cm_p _ _ _ C i p v Hpi Hv)).
  f_equal. rewrite E3. unfold halted_at, threshold. rewrite (cm_eps _ _ _ C), E1. fold (threshold s). cbn [v_ltb FloatNum].
  apply ltb_R; [apply Tu|apply one_finite|]. rewrite one_R. exact T.
Qed.
Print Assumptions C21_partial.

(** ** C29 *)
(** Every NaN or infinite entry that the mask hides becomes NaN. *)
Theorem C29_refuted (prec emax : Z) {Hp : Prec_gt_0 prec} {Hm : Prec_lt_emax prec emax} (s : state (FloatNum prec emax)) (m : tensor bool) :
  wf s -> twf m -> shape m = batch_shape s ->
  exists s', mask_data s DBool m = Ok s' /\
    forall p a R j v, tensor_at s p = Some a -> a_shape a = batch_shape s ++ R -> a.[j] = Some v ->
      nth_error (data m) (j / size R) = Some false -> is_finite (v : binary_float prec emax) = false ->
      exists a', tensor_at s' p = Some a' /\ a'.[j] = Some (B754_nan : binary_float prec emax).
Proof.
  intros W Wm Hs. destruct (PropsViewer.C28_masking_any_arithmetic s m W Wm Hs) as (s' & E & H).
  exists s'. split; [exact E|]. intros p a R j v Ha HR Hv Hb Hf. destruct (H p a Ha) as (a' & Ha' & _ & H').
  exists a'. split; [exact Ha'|]. destruct (H' R HR j v Hv) as (b & Hb' & ->). assert (b = false) by congruence. subst b.
  f_equal. now apply mul_zero_nonfinite.
Qed.
Print Assumptions C29_refuted.
(** Finite hidden entries become zero; entries the mask keeps are shown unchanged, whatever they are. *)
Theorem C29_partial (prec emax : Z) {Hp : Prec_gt_0 prec} {Hm : Prec_lt_emax prec emax} (s : state (FloatNum prec emax)) (m : tensor bool) :
  wf s -> twf m -> shape m = batch_shape s ->
  exists s', mask_data s DBool m = Ok s' /\
    forall p a R j v b, tensor_at s p = Some a -> a_shape a = batch_shape s ++ R -> a.[j] = Some v ->
      nth_error (data m) (j / size R) = Some b ->
      exists a' v', tensor_at s' p = Some a' /\ a'.[j] = Some v' /\
        (b = true -> v' = v) /\
        (b = false -> is_finite (v : binary_float prec emax) = true -> exists sg, v' = (B754_zero sg : binary_float prec emax)).
Proof.
  intros W Wm Hs. destruct (PropsViewer.C28_masking_any_arithmetic s m W Wm Hs) as (s' & E & H).
  exists s'. split; [exact E|]. intros p a R j v b Ha HR Hv Hb. destruct (H p a Ha) as (a' & Ha' & _ & H').
  destruct (H' R HR j v Hv) as (b' & Hb' & Hv'). assert (b' = b) by congruence. subst b'.
  exists a'. eexists. split; [exact Ha'|]. split; [exact Hv'|]. split; intros ->.
  - cbn [v_mul v_one FloatNum]. apply mul_one_l.
  - intros Ff. cbn [v_mul v_zero FloatNum]. now apply mul_zero_l.
Qed.
Print Assumptions C29_partial.

(** ** C33 in floating point: NaN probabilities pass the check, and then nothing halts *)
Theorem C33_refuted_nan (prec emax : Z) {Hp : Prec_gt_0 prec} {Hm : Prec_lt_emax prec emax} (s : state (FloatNum prec emax)) (v : array (FloatNum prec emax)) :
  wf s -> wf_pending s -> awf v -> sig v = sig (probabilities s) -> Forall (eq (B754_nan : binary_float prec emax)) (a_data v) ->
  exists s', set_probabilities (mkEd s "standard") v = Ok (mkEd s' "standard") /\ probabilities s' = v /\
    forall cs i, Forall call_wf cs -> halted (run s' cs) i <> Some true.
Proof.
  intros W P A Sv Nn. eexists. split; [|split].
  - apply (set_probabilities_char (mkEd s "standard") v eq_refl). split; [exact Sv|].
    eapply Forall_impl; [|exact Nn]. cbv beta. intros x <-. split.
    + reflexivity.
    + cbn [v_ltb v_one FloatNum]. generalize (f_one : binary_float prec emax). intros [[|]|[|]| |[|] ? ? ?]; reflexivity.
  - reflexivity.
  - cbv zeta. cbn [ed_state]. intros cs i F H. match type of H with context [run ?x cs] => set (s0 := x) in * end.
    assert (B : batch_shape s0 = batch_shape s) by (unfold sig in Sv; injection Sv; intros _ X; exact X).
    assert (W0 : wf s0).
    { destruct W. unfold sig in Sv. injection Sv as X1 X2. split; rewrite ?B; auto; cbn [s0 probabilities residuals iterations];
        try congruence. }
    assert (P0 : wf_pending s0) by exact P.
    apply halted_get_inv in H as (p & Hpi & Hh).
    destruct (run_wf s0 cs W0 P0 F) as [W' _]. destruct (element_exists _ i p W' Hpi) as (r & n & El).
    assert (E : p = (B754_nan : binary_float prec emax)).
    { refine (run_element (N := FloatNum prec emax) (fun _ => True) (fun p _ _ => p = (B754_nan : binary_float prec emax)) s0 _ _ cs s0 eq_refl eq_refl W0 P0 F _ _ i p r n El).
      - intros x _ _ w -> _. reflexivity.
      - intros x _ _ ->. reflexivity.
      - apply Forall_forall. intros [|h|] _; cbn; auto. apply Forall_forall. auto.
      - intros j x _ _ (Hx & _). symmetry. exact (Forall_nth _ _ _ _ Nn Hx). }
    subst p. unfold halted_at in Hh. cbn [v_ltb FloatNum] in Hh. revert Hh. generalize (threshold (run s0 cs) : binary_float prec emax).
    intros [[|]|[|]| |[|] ? ? ?]; cbn; discriminate.
Qed.
Print Assumptions C33_refuted_nan.

(** ** C60 *)
(** the halting probability that counts, after clamping and depression *)
Definition effective_value {prec emax : Z} {Hp : Prec_gt_0 prec} {Hm : Prec_lt_emax prec emax} (s : state (FloatNum prec emax))
  (v : val (FloatNum prec emax)) : binary_float prec emax :=
  f_mul (f_of_py (depression_constant s : pyfloat)) (f_min f_one (f_max f_zero (v : binary_float prec emax))).
(** Positive halting probabilities that are small against the format are lost: an element at 1/2
    stays there for ever, although the probabilities add up to any amount. *)
Theorem C60_refuted (prec emax : Z) {Hp : Prec_gt_0 prec} {Hm : Prec_lt_emax prec emax} (s : state (FloatNum prec emax)) cs i p :
  (2 <= prec)%Z -> wf s -> wf_pending s -> Forall call_wf cs -> Forall (fun c => c <> CReset) cs ->
  eps_ok (epsilon s) -> (B2R (epsilon s : pyfloat) <= / 2)%R -> depression_constant s = (Bone : pyfloat) ->
  (probabilities s).[i] = Some p -> is_finite (p : binary_float prec emax) = true -> B2R (p : binary_float prec emax) = (/ 2)%R ->
  Forall (fun c : call (FloatNum prec emax) => Forall (fun v : val (FloatNum prec emax) => is_finite (v : binary_float prec emax) = true /\
                                    (0 < B2R (v : binary_float prec emax) <= bpow radix2 (- prec - 1))%R) (value_of i c)) cs ->
  (probabilities (run s cs)).[i] = Some p /\ halted (run s cs) i = Some false.
Proof.
  intros H2 W P F R He Hle Hdep Hpi Fp Bp G.
  assert (Hd : dep_ok prec emax (depression_constant s)).
  { rewrite Hdep. unfold dep_ok. rewrite (of_py_one prec emax H2). split; [apply one_finite|]. rewrite one_R. lra. }
  destruct (run_wf s cs W P F) as [W' _]. pose proof (run_frame s cs W P F) as Fr.
  destruct (same_settings s (run s cs) (sf_eps _ _ Fr) (sf_dep _ _ Fr)) as (_ & _ & _ & _ & N5 & _).
  assert (T := threshold_ge_half prec emax H2 s He Hle). assert (Tu := threshold_unit prec emax H2 s He).
  assert (Nh : halted_at s p = false).
  { unfold halted_at. cbn [v_ltb FloatNum]. apply ltb_R_false; [apply Tu|exact Fp|]. lra. }
  destruct (nth_error_same_length (a_data (probabilities s)) (a_data (probabilities (run s cs))) i p) as [p' Hp']; auto.
  { rewrite (wf_batch_len s W), (wf_batch_len _ W'). pose proof (sf_p _ _ Fr) as X. unfold sig in X.
    injection X as X _. unfold batch_shape. congruence. }
  destruct (element_exists (run s cs) i p' W' Hp') as (r & n & El).
  assert (E : p' = p).
  { refine (run_element_values (N := FloatNum prec emax) _ (fun _ x _ _ => x = p) s _ i cs s [] eq_refl eq_refl W P F R G _ p' r n El).
    - intros _ x _ _ v -> [Fv [Av Bv]].
      pose proof (half_gap_small prec H2) as Sm. unfold half_gap in Sm.
      assert (Uv : funit (v : binary_float prec emax)) by (split; [exact Fv|lra]).
      assert (Sc : B2R (scaled s v : binary_float prec emax) = B2R (v : binary_float prec emax)).
      { unfold scaled, clip01. cbn [v_mul v_of_scl v_min v_max v_one v_zero FloatNum]. rewrite Hdep.
        rewrite (of_py_one prec emax H2), mul_one_l. now apply clip_id. }
      assert (Nv : is_nan (v : binary_float prec emax) = false) by now apply finite_not_nan.
      pose proof (scaled_nonneg prec emax s Hd v Nv) as Sn.
      assert (Rd : round radix2 (SpecFloat.fexp prec emax) ZnearestE (B2R (scaled s v : binary_float prec emax) + B2R (p : binary_float prec emax))%R = (/ 2)%R).
      { rewrite Sc, Bp, Rplus_comm. apply rnd_stuck; auto. unfold half_gap. lra. }
      assert (Up : funit (p : binary_float prec emax)) by (split; [exact Fp|lra]).
      assert (Wn : halts_now s p v = false).
      { unfold halts_now. cbn [v_ltb v_add FloatNum].
        destruct (add_finite prec emax (scaled s v) p (proj1 Sn) Fp) as [A1 A2].
        { rewrite Rd. rewrite Rabs_pos_eq by lra. pose proof (one_lt_emax prec emax H2). lra. }
        apply ltb_R_false; [apply Tu|exact A1|]. rewrite A2, Rd. exact T. }
      destruct (running_step prec emax H2 s He Hd p v Up Nv Wn) as (Fn & Rn & _).
      rewrite Rplus_comm, Rd in Rn. apply B2R_inj.
      + revert Fn Rn. generalize (next_p s p v : binary_float prec emax). intros [| | |]; cbn; intros; try discriminate; try reflexivity; lra.
      + revert Fp Bp. generalize (p : binary_float prec emax). intros [| | |]; cbn; intros; try discriminate; try reflexivity; lra.
      + rewrite Rn. now symmetry.
    - intros x y z (Hx & _). congruence. }
  subst p'. split; [exact Hp'|]. unfold halted. rewrite (halted_get _ i p Hp'), N5. now f_equal.
Qed.
Print Assumptions C60_refuted.
(** With effective halting probabilities of at least one unit in the last place below one, every
    element is halted after 2^(prec+1) iterations. *)
Theorem C60_partial (prec emax : Z) {Hp : Prec_gt_0 prec} {Hm : Prec_lt_emax prec emax} (s : state (FloatNum prec emax)) cs i :
  (2 <= prec <= 53)%Z -> wf s -> wf_pending s -> Forall call_wf cs -> Forall (fun c => c <> CReset) cs ->
  eps_ok (epsilon s) -> (lost_epsilon prec < B2R (epsilon s : pyfloat))%R -> dep_ok prec emax (depression_constant s) ->
  probabilities_ok s -> i < size (batch_shape s) ->
  Forall (fun c : call (FloatNum prec emax) => Forall (fun v : val (FloatNum prec emax) => not_nan v /\ (bpow radix2 (- prec) <= B2R (effective_value s v))%R) (value_of i c)) cs ->
  (2 ^ (prec + 1) <= Z.of_nat (length (values_of i (returned s cs))))%Z ->
  halted (run s cs) i = Some true.
Proof.
  intros [H2 H53] W P F R He Hle Hd Hs Hi G Hn.
  destruct (run_wf s cs W P F) as [W' _]. pose proof (run_frame s cs W P F) as Fr.
  destruct (same_settings s (run s cs) (sf_eps _ _ Fr) (sf_dep _ _ Fr)) as (_ & _ & _ & _ & N5 & _).
  assert (T := threshold_below_one prec emax H2 s H53 He Hle). assert (Tu := threshold_unit prec emax H2 s He).
  assert (exists p', (probabilities (run s cs)).[i] = Some p') as [p' Hp'].
  { apply nth_error_lt. rewrite (wf_batch_len _ W'). pose proof (sf_p _ _ Fr) as X. unfold sig in X.
    injection X as X _. unfold batch_shape in *. congruence. }
  destruct (element_exists (run s cs) i p' W' Hp') as (r & n & El).
  assert (E : funit (p' : binary_float prec emax) /\
    (B2R (p' : binary_float prec emax) = 1 \/
     IZR (Z.of_nat (length (values_of i (returned s cs)))) * half_gap prec <= B2R (p' : binary_float prec emax))%R).
  { refine (run_element_values (N := FloatNum prec emax) _
      (fun vs x _ _ => funit (x : binary_float prec emax) /\
        (B2R (x : binary_float prec emax) = 1 \/ IZR (Z.of_nat (length vs)) * half_gap prec <= B2R (x : binary_float prec emax))%R)
      s _ i cs s [] eq_refl eq_refl W P F R G _ p' r n El).
    - intros vs x _ _ v [Ux Hx] [Nv Bv].
      destruct (step_unit prec emax H2 s He Hd x v Ux Nv) as [Un Mn]. split; [exact Un|].
      destruct Hx as [Hx|Hx]; [left; destruct Un as [_ Un]; lra|].
      destruct (halts_now s x v) eqn:Eh.
      + left. rewrite (proj2 (halting_step prec emax H2 s x v Ux Eh)). apply one_R.
      + right. destruct (running_step prec emax H2 s He Hd x v Ux Nv Eh) as (_ & Rn & _ & Ln).
        change (effective_value s v) with (scaled s v : binary_float prec emax) in Bv.
        destruct (Rlt_or_le (B2R (x : binary_float prec emax) + B2R (scaled s v : binary_float prec emax)) 1) as [L|L].
        * pose proof (rnd_moves prec emax H2 (B2R (x : binary_float prec emax)) (B2R (scaled s v : binary_float prec emax))
            (proj1 (proj2 Ux)) Bv L) as Mv. rewrite Rn. rewrite app_length. cbn [length].
          rewrite Nat2Z.inj_add, plus_IZR. change (IZR (Z.of_nat 1)) with 1%R. lra.
        * exfalso. assert (1 <= round radix2 (SpecFloat.fexp prec emax) ZnearestE
            (B2R (x : binary_float prec emax) + B2R (scaled s v : binary_float prec emax)))%R.
          { apply rnd_ge_fmt; [exact Hp|now apply format_1|exact L]. } lra.
    - intros x y z (Hx & _). pose proof (Hs i x Hx) as Ux. split; [exact Ux|]. right. cbn [length Z.of_nat].
      destruct Ux as [_ Ux]. lra. }
  destruct E as [U E].
  assert (B1 : B2R (p' : binary_float prec emax) = 1%R).
  { destruct E as [E|E]; [exact E|]. destruct U as [_ U]. apply IZR_le in Hn.
    assert (Q : IZR (2 ^ (prec + 1)) = bpow radix2 (prec + 1)) by (apply (IZR_Zpower radix2); lia).
    assert (Q1 : (bpow radix2 (prec + 1) * half_gap prec = 1)%R).
    { unfold half_gap. rewrite <- bpow_plus. replace (prec + 1 + (- prec - 1))%Z with 0%Z by lia. reflexivity. }
    pose proof (half_gap_pos prec). rewrite Q in Hn.
    assert (1 <= IZR (Z.of_nat (length (values_of i (returned s cs)))) * half_gap prec)%R.
    { rewrite <- Q1. apply Rmult_le_compat_r; lra. } lra. }
  unfold halted. rewrite (halted_get _ i p' Hp'), N5. f_equal. unfold halted_at. cbn [v_ltb FloatNum].
  apply ltb_R; [apply Tu|apply U|]. rewrite B1. exact T.
Qed.
Print Assumptions C60_partial.

(** Every effective halting probability above half a unit in the last place below one counts, so
    2^(-prec-1) is the exact limit: with such probabilities every element is halted after 2^(prec+2)
    iterations. *)
Theorem C60_partial_sharp (prec emax : Z) {Hp : Prec_gt_0 prec} {Hm : Prec_lt_emax prec emax} (s : state (FloatNum prec emax)) cs i :
  (3 <= prec <= 53)%Z -> wf s -> wf_pending s -> Forall call_wf cs -> Forall (fun c => c <> CReset) cs ->
  eps_ok (epsilon s) -> (lost_epsilon prec < B2R (epsilon s : pyfloat))%R -> dep_ok prec emax (depression_constant s) ->
  probabilities_ok s -> i < size (batch_shape s) ->
  Forall (fun c : call (FloatNum prec emax) => Forall (fun v : val (FloatNum prec emax) => not_nan v /\ (bpow radix2 (- prec - 1) < B2R (effective_value s v))%R) (value_of i c)) cs ->
  (2 ^ (prec + 2) <= Z.of_nat (length (values_of i (returned s cs))))%Z ->
  halted (run s cs) i = Some true.
Proof.
  intros [H3 H53] W P F Nr He Hle Hd Hs Hi G Hn. assert (H2 : (2 <= prec)%Z) by lia.
  destruct (run_wf s cs W P F) as [W' _]. pose proof (run_frame s cs W P F) as Fr.
  destruct (same_settings s (run s cs) (sf_eps _ _ Fr) (sf_dep _ _ Fr)) as (_ & _ & _ & _ & N5 & _).
  assert (T := threshold_below_one prec emax H2 s H53 He Hle). assert (Tu := threshold_unit prec emax H2 s He).
  assert (exists p', (probabilities (run s cs)).[i] = Some p') as [p' Hp'].
  { apply nth_error_lt. rewrite (wf_batch_len _ W'). pose proof (sf_p _ _ Fr) as X. unfold sig in X.
    injection X as X _. unfold batch_shape in *. congruence. }
  destruct (element_exists (run s cs) i p' W' Hp') as (r & n & El).
  pose proof (half_gap_pos prec) as Pos. set (g := (/ 2 * half_gap prec)%R) in *.
  (* at least [g] per iteration, apart from the one that crosses 1/2 *)
  set (moved := fun (k : nat) (x : R) => (x = 1 \/ (x < / 2 /\ IZR (Z.of_nat k) * g <= x) \/ (/ 2 <= x /\ IZR (Z.of_nat k) * g <= x + g))%R).
  assert (E : funit (p' : binary_float prec emax) /\ moved (length (values_of i (returned s cs))) (B2R (p' : binary_float prec emax))).
  { refine (run_element_values (N := FloatNum prec emax) _
      (fun vs x _ _ => funit (x : binary_float prec emax) /\ moved (length vs) (B2R (x : binary_float prec emax)))
      s _ i cs s [] eq_refl eq_refl W P F Nr G _ p' r n El).
    - intros vs x _ _ v [Ux Hx] [Nv Bv].
      destruct (step_unit prec emax H2 s He Hd x v Ux Nv) as [Un Mn]. split; [exact Un|]. unfold moved in *.
      destruct Hx as [Hx|Hx]; [left; destruct Un as [_ Un]; lra|].
      destruct (halts_now s x v) eqn:Eh.
      + left. rewrite (proj2 (halting_step prec emax H2 s x v Ux Eh)). apply one_R.
      + destruct (running_step prec emax H2 s He Hd x v Ux Nv Eh) as (_ & Rn & _ & Ln).
        change (effective_value s v) with (scaled s v : binary_float prec emax) in Bv. fold (half_gap prec) in Bv.
        rewrite app_length. cbn [length]. rewrite Nat2Z.inj_add, plus_IZR. change (IZR (Z.of_nat 1)) with 1%R.
        set (X := B2R (x : binary_float prec emax)) in *. set (V := B2R (scaled s v : binary_float prec emax)) in *.
        rewrite Rn in Ln. rewrite Rn. clear Rn Mn.
        destruct (Rlt_or_le (X + V) 1) as [L|L].
        * destruct Hx as [[Lx Hx]|[Lx Hx]].
          -- destruct (Rlt_or_le (X + V) (/ 2)) as [Lh|Lh].
             ++ pose proof (rnd_moves_low prec emax X V H3 (proj1 (proj2 Ux)) Bv Lh) as Mv. fold g in Mv.
                destruct (Rlt_or_le (round radix2 (SpecFloat.fexp prec emax) ZnearestE (X + V)) (/ 2)) as [Q|Q].
                ** right. left. split; [exact Q|]. lra.
                ** right. right. split; [exact Q|]. unfold g in *. lra.
             ++ right. right. split; [apply rnd_ge_fmt; [exact Hp|now apply format_half|exact Lh]|].
                assert (/ 2 <= round radix2 (SpecFloat.fexp prec emax) ZnearestE (X + V))%R; [|lra].
                apply rnd_ge_fmt; [exact Hp|now apply format_half|exact Lh].
          -- pose proof (rnd_moves_high prec emax H2 X V (generic_format_B2R prec emax x) Lx Bv L) as Mv.
             right. right. split; [lra|]. unfold g in *. lra.
        * exfalso. assert (1 <= round radix2 (SpecFloat.fexp prec emax) ZnearestE (X + V))%R.
          { apply rnd_ge_fmt; [exact Hp|now apply format_1|exact L]. } lra.
    - intros x y z (Hx & _). pose proof (Hs i x Hx) as Ux. split; [exact Ux|]. unfold moved. cbn [length Z.of_nat].
      destruct Ux as [_ Ux]. destruct (Rlt_or_le (B2R (x : binary_float prec emax)) (/ 2)) as [Q|Q].
      + right. left. split; [exact Q|]. lra.
      + right. right. split; [exact Q|]. unfold g. lra. }
  destruct E as [U E].
  assert (B1 : B2R (p' : binary_float prec emax) = 1%R).
  { destruct U as [Ff [_ U]]. apply IZR_le in Hn.
    assert (Q : IZR (2 ^ (prec + 2)) = bpow radix2 (prec + 2)) by (apply (IZR_Zpower radix2); lia).
    assert (Q1 : (bpow radix2 (prec + 2) * g = 1)%R).
    { unfold g, half_gap. change (/ 2)%R with (bpow radix2 (-1)). rewrite <- !bpow_plus.
      replace (prec + 2 + (-1 + (- prec - 1)))%Z with 0%Z by lia. reflexivity. }
    assert (g > 0)%R by (unfold g; lra). rewrite Q in Hn.
    assert (L : (1 <= IZR (Z.of_nat (length (values_of i (returned s cs)))) * g)%R).
    { rewrite <- Q1. apply Rmult_le_compat_r; lra. }
    destruct E as [E|[[_ E]|[_ E]]]; [exact E|lra|].
    (* at least 1 - g, and a number of the format below one is at most 1 - 4 g *)
    destruct (Rle_lt_or_eq_dec _ _ U) as [Lt|Eq]; [exfalso|exact Eq].
    assert (Lp : (B2R (p' : binary_float prec emax) <= pred radix2 (SpecFloat.fexp prec emax) 1)%R).
    { apply pred_ge_gt; [now apply (FLT_exp_valid (SpecFloat.emin prec emax) prec)|apply generic_format_B2R|now apply format_1|exact Lt]. }
    change 1%R with (bpow radix2 0) in Lp at 1. rewrite pred_bpow in Lp. rewrite (fexp_0 prec emax H2) in Lp.
    change (bpow radix2 0) with 1%R in Lp. unfold g in *. rewrite (gap_e prec) in *. pose proof (bpow_gt_0 radix2 (- prec)). lra. }
  unfold halted. rewrite (halted_get _ i p' Hp'), N5. f_equal. unfold halted_at. cbn [v_ltb FloatNum].
  apply ltb_R; [apply Tu|apply U|]. rewrite B1. exact T.
Qed.
Print Assumptions C60_partial_sharp.

(** ** C61 *)
(** The count of an element that is still running after [k] iterations. *)
Lemma float_count (prec emax : Z) {Hp : Prec_gt_0 prec} {Hm : Prec_lt_emax prec emax} (s : state (FloatNum prec emax)) cs i n :
  (2 <= prec)%Z -> wf s -> fresh s -> Forall call_wf cs -> Forall no_nan cs -> Forall (fun c => c <> CReset) cs ->
  eps_ok (epsilon s) -> dep_ok prec emax (depression_constant s) ->
  (iterations (run s cs)).[i] = Some n -> halted (run s cs) i = Some false ->
  counts (n : binary_float prec emax) (Z.min (Z.of_nat (length (values_of i (returned s cs)))) (2 ^ prec)).
Proof.
  intros H2 W Fs F G R He Hd Hni Hf. assert (P : wf_pending s) by now apply Samples.fresh_wf_pending.
  destruct (run_wf s cs W P F) as [W' _]. pose proof (run_frame s cs W P F) as Fr.
  destruct (same_settings s (run s cs) (sf_eps _ _ Fr) (sf_dep _ _ Fr)) as (_ & _ & _ & _ & N5 & _).
  apply halted_get_inv in Hf as (p & Hpi & Hh). symmetry in Hh. rewrite N5 in Hh.
  destruct (element_exists (run s cs) i p W' Hpi) as (r & n0 & El). pose proof El as (_ & _ & Hn0).
  assert (n0 = n) by congruence. subst n0. assert (P2 : (0 < 2 ^ prec)%Z) by (apply Z.pow_pos_nonneg; lia).
  enough (X : funit (p : binary_float prec emax) /\ (halted_at s p = false ->
    counts (n : binary_float prec emax) (Z.min (Z.of_nat (length (values_of i (returned s cs)))) (2 ^ prec)))) by now apply X.
  refine (run_element_values (N := FloatNum prec emax) not_nan
    (fun vs p _ n => funit (p : binary_float prec emax) /\ (halted_at s p = false ->
      counts (n : binary_float prec emax) (Z.min (Z.of_nat (length vs)) (2 ^ prec)))) s _ i cs s [] eq_refl eq_refl W P F R _ _ p r n El).
  - intros vs x _ y v [Ux Hx] Nv. split; [now apply (step_unit prec emax H2 s He Hd x v)|]. intros Hn'.
    assert (Hx' : halted_at s x = false).
    { destruct (halted_at s x) eqn:E; [|reflexivity]. destruct (step_stays prec emax H2 s He Hd x v Ux Nv E) as (_ & _ & E'). congruence. }
    unfold next_i. rewrite Hx'. cbn [v_add v_one FloatNum]. specialize (Hx Hx').
    rewrite app_length. cbn [length]. rewrite Nat2Z.inj_add. change (Z.of_nat 1) with 1%Z.
    replace (Z.min (Z.of_nat (length vs) + 1) (2 ^ prec))%Z
      with (Z.min (Z.min (Z.of_nat (length vs)) (2 ^ prec) + 1) (2 ^ prec))%Z by lia.
    apply count_step; auto. lia.
  - now apply values_ok.
  - intros x y z (Hx & _ & Hz). split; [now apply (fresh_unit s Fs i)|]. intros _. cbn [length]. rewrite Z.min_l by lia.
    destruct Fs as (_ & _ & Fi & _). pose proof (Forall_nth _ _ _ _ Fi Hz) as X. cbv beta in X. subst z. split; reflexivity.
Qed.
(** The iteration count is a float and stops counting at 2^prec. *)
Theorem C61_refuted (prec emax : Z) {Hp : Prec_gt_0 prec} {Hm : Prec_lt_emax prec emax} (s : state (FloatNum prec emax)) cs i n :
  (2 <= prec)%Z -> wf s -> fresh s -> Forall call_wf cs -> Forall no_nan cs -> Forall (fun c => c <> CReset) cs ->
  eps_ok (epsilon s) -> dep_ok prec emax (depression_constant s) ->
  (iterations (run s cs)).[i] = Some n -> halted (run s cs) i = Some false ->
  let k := Z.of_nat (length (values_of i (returned s cs))) in
  (2 ^ prec < k)%Z -> ~ counts (n : binary_float prec emax) k /\ counts (n : binary_float prec emax) (2 ^ prec).
Proof.
  intros H2 W Fs F G R He Hd Hni Hf k Hk. pose proof (float_count prec emax s cs i n H2 W Fs F G R He Hd Hni Hf) as C.
  rewrite Z.min_r in C by (unfold k in Hk; lia). split; [|exact C].
  intros [_ X]. destruct C as [_ C]. rewrite C in X. apply eq_IZR in X. lia.
Qed.
Print Assumptions C61_refuted.
Theorem C61_partial (prec emax : Z) {Hp : Prec_gt_0 prec} {Hm : Prec_lt_emax prec emax} (s : state (FloatNum prec emax)) cs i n :
  (2 <= prec)%Z -> wf s -> fresh s -> Forall call_wf cs -> Forall no_nan cs -> Forall (fun c => c <> CReset) cs ->
  eps_ok (epsilon s) -> dep_ok prec emax (depression_constant s) ->
  (iterations (run s cs)).[i] = Some n -> halted (run s cs) i = Some false ->
  let k := Z.of_nat (length (values_of i (returned s cs))) in
  (k <= 2 ^ prec)%Z -> counts (n : binary_float prec emax) k.
Proof.
  intros H2 W Fs F G R He Hd Hni Hf k Hk. pose proof (float_count prec emax s cs i n H2 W Fs F G R He Hd Hni Hf) as C.
  now rewrite Z.min_l in C by (unfold k in Hk; lia).
Qed.
Print Assumptions C61_partial.

(** ** Cases: a float32 controller (epsilon 0.1), a float32 controller with epsilon 2^-30, and
    bfloat16 and float16 counters *)
Lemma leb_real {prec emax : Z} (x y : binary_float prec emax) :
  is_finite x && is_finite y && Bleb x y = true -> (B2R x <= B2R y)%R.
Proof.
  intros H. apply andb_prop in H as [H L]. apply andb_prop in H as [Fx Fy].
  rewrite Bleb_correct in L by assumption. destruct (Rle_bool_spec (B2R x) (B2R y)); [assumption|discriminate].
Qed.
Lemma unit_by_computation {prec emax : Z} {Hp : Prec_gt_0 prec} {Hm : Prec_lt_emax prec emax} (x : binary_float prec emax) :
  is_finite x && Bleb f_zero x && Bleb x f_one = true -> funit x.
Proof.
  intros H. apply andb_prop in H as [H L2]. apply andb_prop in H as [Fx L1].
  split; [exact Fx|]. split; [apply (leb_real f_zero x)|rewrite <- (one_R prec emax); apply (leb_real x f_one)].
  - now rewrite Fx, L1.
  - now rewrite Fx, (one_finite prec emax), L2.
Qed.
Notation N32 := (FloatNum 24 128).
Definition f32 (a b : Z) : val N32 := f_of_py (py_div a b).
Definition arr32 (sh : list nat) (d : list (val N32)) : array N32 := mkA (N := N32) DF32 (mkT sh d).
Definition defs32 : list (bcall N32) := [BDirect "x" (Leaf (arr32 [2] [f32 0 1; f32 0 1]))].
Definition core32 (eps : pyfloat) : state N32 := empty_state (N := N32) [2] DF32 eps (py_div 1 1) None.
Definition ctl32 (eps : pyfloat) : state N32 := brun (core32 eps) defs32.
Definition step32 (a b : val N32) : list (call N32) :=
  [CCache (N := N32) "x" (Leaf (arr32 [2] [f32 1 1; f32 2 1])); CIter (N := N32) (arr32 [2] [a; b])].
Lemma ctl32_ok eps : eps_sane (N := N32) eps -> wf (ctl32 eps) /\ fresh (ctl32 eps) /\ wf_pending (ctl32 eps).
Proof.
  intros Se. assert (B : new_builder_with (N := N32) (Some None) (BInt 2) (Some DF32) eps (py_div 1 1) = Ok (core32 eps)).
  { apply new_builder_with_ok. split; [reflexivity|]. split; [exact Se|]. split; [constructor; [lia|constructor]|reflexivity]. }
  destruct (new_builder_wf _ _ _ _ _ _ B) as [W F]. destruct (brun_wf _ defs32 W F) as (W' & F' & _).
  { repeat constructor. }
  split; [exact W'|]. split; [exact F'|]. now apply Samples.fresh_wf_pending.
Qed.
Definition calls32 : list (call N32) := step32 (f32 1 3) (f32 1 10) ++ step32 (f32 1 3) (f32 9 10) ++ step32 (f32 1 3) (f32 1 2).
(** sign, mantissa and exponent of the shown numbers *)
Definition bits (a : array N32) : list SpecFloat.spec_float := map (B2SF (prec := 24) (emax := 128)) (a_data a).
Example C02_case :
  wf (ctl32 (py_div 1 10)) /\ wf_pending (ctl32 (py_div 1 10)) /\ Forall call_wf calls32 /\ Forall no_nan calls32 /\
  eps_ok (epsilon (ctl32 (py_div 1 10))) /\ dep_ok 24 128 (depression_constant (ctl32 (py_div 1 10))) /\
  probabilities_ok (ctl32 (py_div 1 10)) /\
  (** element 0 halts in the third iteration (3 * fl(1/3) is not exactly 1), element 1 in the second *)
  map (fun k => data (halted_batches (run (ctl32 (py_div 1 10)) (firstn (2 * k) calls32)))) [1; 2; 3] =
    [[false; false]; [false; true]; [true; true]] /\
  bits (probabilities (run (ctl32 (py_div 1 10)) calls32)) = [B2SF (f32 1 1); B2SF (f32 1 1)].
Proof.
  assert (Se : eps_sane (N := N32) (py_div 1 10)) by (split; vm_compute; reflexivity).
  destruct (ctl32_ok _ Se) as (W & F & P). split; [exact W|]. split; [exact P|].
  split; [repeat constructor|]. split; [repeat constructor; vm_compute; reflexivity|].
  split; [apply unit_by_computation; vm_compute; reflexivity|].
  split; [split; [vm_compute; reflexivity|apply (leb_real (f_zero (prec := 24) (emax := 128))); vm_compute; reflexivity]|].
  split; [now apply fresh_unit|]. split; vm_compute; reflexivity.
Qed.
Example C03_float_case : let s := run (ctl32 (py_div 1 10)) (firstn 4 calls32) in
  halted s 1 = Some true /\ Forall call_wf (skipn 4 calls32) /\ Forall no_nan (skipn 4 calls32) /\
  Forall (fun c => c <> CReset) (skipn 4 calls32) /\ List.length (returned s (skipn 4 calls32)) = 2.
Proof.
  split; [vm_compute; reflexivity|]. split; [repeat constructor|]. split; [repeat constructor; vm_compute; reflexivity|].
  split; [repeat constructor; discriminate|]. vm_compute. reflexivity.
Qed.
Example C07_float_case :
  bits (residuals (run (ctl32 (py_div 1 10)) calls32)) = [SpecFloat.S754_finite false 11184810 (-25); SpecFloat.S754_finite false 15099494 (-24)].
Proof. vm_compute. reflexivity. Qed.
(** 2^-30 as an epsilon: accepted, but even a full strength iteration does not halt. *)
Definition tiny : pyfloat := py_div 1 (2 ^ 30).
Example C21_case : eps_sane (N := N32) tiny /\ is_finite tiny = true /\ (B2R tiny <= lost_epsilon 24)%R /\
  List.length (returned (ctl32 tiny) (step32 (f32 1 1) (f32 1 1))) = 2 /\
  data (halted_batches (run (ctl32 tiny) (step32 (f32 1 1) (f32 1 1)))) = [false; false] /\
  data (halted_batches (run (ctl32 (py_div 1 10)) (step32 (f32 1 1) (f32 1 1)))) = [true; true].
Proof.
  split; [split; vm_compute; reflexivity|]. split; [vm_compute; reflexivity|].
  split; [|repeat split; vm_compute; reflexivity].
  unfold lost_epsilon. change ((24 =? 53)%Z) with false. cbv iota.
  apply Rle_trans with (bpow radix2 (- 24 - 1)); [|rewrite <- (Rplus_0_r (bpow radix2 (- 24 - 1))) at 1; apply Rplus_le_compat_l, Rlt_le, bpow_gt_0].
  apply Rle_trans with (B2R (py_div 1 (2 ^ 25))).
  - apply leb_real. vm_compute. reflexivity.
  - rewrite <- SF2R_B2SF.
    assert (E : B2SF (py_div 1 (2 ^ 25)) = SpecFloat.S754_finite false 4503599627370496 (-77)) by (vm_compute; reflexivity).
    rewrite E. unfold SF2R, F2R. cbn [Fnum Fexp cond_Zopp].
    replace 4503599627370496%Z with (2 ^ 52)%Z by reflexivity.
    change (2 ^ 52)%Z with (radix2 ^ 52)%Z. rewrite IZR_Zpower by lia. rewrite <- bpow_plus. apply Rle_refl.
Qed.
(** a mask over a controller whose accumulator holds infinity, NaN and a number *)
Definition ctl32b : state N32 :=
  brun (core32 (py_div 1 10)) [BDirect "x" (Leaf (arr32 [2; 2] [B754_infinity true; f32 3 1; B754_nan; f32 (-5) 1]))].
Example C29_case : wf ctl32b /\
  match mask_data ctl32b DBool (mkT [2] [false; true]) with
  | Ok s' => match dget "x" (accumulators s') with Some (Leaf a) => bits a | _ => [] end
  | Err _ => []
  end = [SpecFloat.S754_nan; SpecFloat.S754_zero false; SpecFloat.S754_nan; B2SF (f32 (-5) 1)].
Proof.
  split; [|vm_compute; reflexivity].
  assert (B : new_builder_with (N := N32) (Some None) (BInt 2) (Some DF32) (py_div 1 10 : scl N32) (py_div 1 1) = Ok (core32 (py_div 1 10))).
  { apply new_builder_with_ok. split; [reflexivity|]. split; [split; vm_compute; reflexivity|]. split; [constructor; [lia|constructor]|reflexivity]. }
  destruct (new_builder_wf _ _ _ _ _ _ B) as [W F].
  apply (brun_wf _ [BDirect "x" (Leaf (arr32 [2; 2] [B754_infinity true; f32 3 1; B754_nan; f32 (-5) 1]))] W F). repeat constructor.
Qed.
Example C33_nan_case : let v := arr32 [2] [B754_nan; B754_nan] in
  awf v /\ sig v = sig (probabilities (ctl32 (py_div 1 10))) /\ Forall (eq (B754_nan : binary_float 24 128)) (a_data v).
Proof. split; [reflexivity|]. split; [reflexivity|]. repeat constructor. Qed.
(** one iteration with 1/2, then a hundred with 2^-25 *)
Fixpoint repeat_calls (k : nat) (l : list (call N32)) : list (call N32) :=
  match k with 0 => [] | S k => l ++ repeat_calls k l end.
Example C60_case : let s := run (ctl32 (py_div 1 10)) (step32 (f32 1 2) (f32 1 2)) in
  bits (probabilities s) = [B2SF (f32 1 2); B2SF (f32 1 2)] /\
  let cs := repeat_calls 100 (step32 (f32 1 (2 ^ 25)) (f32 1 (2 ^ 20))) in
  List.length (values_of 0 (returned s cs)) = 100 /\
  map (fun p => SpecFloat.SFeqb p (B2SF (f32 1 2))) (bits (probabilities (run s cs))) = [true; false].
Proof. split; [|split]; vm_compute; reflexivity. Qed.
(** bfloat16: three hundred iterations, counted as 256 *)
Notation N8 := (FloatNum 8 128).
Definition ctl8 : state N8 := empty_state (N := N8) [1] DBF16 (py_div 1 10) (py_div 1 1) None.
Definition idle8 : call N8 := CIter (N := N8) (mkA (N := N8) DBF16 (mkT [1] [f_zero])).
Example C61_case : wf ctl8 /\ fresh ctl8 /\
  List.length (values_of 0 (returned ctl8 (repeat idle8 300))) = 300 /\
  halted (run ctl8 (repeat idle8 300)) 0 = Some false /\
  map (B2SF (prec := 8) (emax := 128)) (a_data (iterations (run ctl8 (repeat idle8 300)))) =
    [B2SF (f_of_py (prec := 8) (emax := 128) (py_div 256 1))].
Proof.
  assert (B : new_builder_with (N := N8) (Some None) (BInt 1) (Some DBF16) (py_div 1 10 : scl N8) (py_div 1 1) = Ok ctl8).
  { apply new_builder_with_ok. split; [reflexivity|]. split; [split; vm_compute; reflexivity|]. split; [constructor; [lia|constructor]|reflexivity]. }
  destruct (new_builder_wf _ _ _ _ _ _ B) as [W F]. split; [exact W|]. split; [exact F|]. repeat split; vm_compute; reflexivity.
Qed.
