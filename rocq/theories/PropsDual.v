(** * Properties: differentiating through the controller (C94, C95, C96). Vocabulary: Dual.v, DualSpec.v. *)
From Coq Require Import QArith Qcanon Lia ZArith.
From Verif Require Import Base PyTree Tensor Num Utils States Controller Viewer Layers Wf Spec History ElementSpec ScalarSpec StateSpec LayerSpec TraceSpec Jit JitSpec SlopeSpec Dual Dual2 DualSpec.
From Verif Require Import BaseFacts TensorFacts PyTreeFacts QcFacts Samples ControllerFacts IterateFacts HistoryFacts AgreeFacts GravesFacts ExactFacts ScalarFacts ScriptFacts TraceFacts TraceFacts2 MoveFacts JitFacts
  StateFacts LayerFacts LayerFacts2 LayerFacts3 LayerFacts4 LoopFacts IeeeLoopFacts2 DualFacts DualFacts2 DualFacts3 DualFacts4 DualFacts5 DualCases.
From Verif Require Import PropsController PropsScalar PropsLayers PropsLoop PropsSlope.
Close Scope Qc_scope. Close Scope Q_scope. Close Scope R_scope. Close Scope Z_scope. Open Scope string_scope. Open Scope list_scope. Open Scope nat_scope.

(** ** C94 *)
(** Every history on pairs computes, in the values, exactly what it computes without differentiation: the same
    calls raise, with the same exceptions, and the same elements halt, whatever the tangents are. *)
Theorem C94_values_are_unchanged (s : state DualNum) (cs : list (call DualNum)) :
  run (values s) (map value_call cs) = values (run s cs) /\
  (forall c, apply_call (values (run s cs)) (value_call c) = outcome_map values (apply_call (run s cs) c)) /\
  halted_batches (values (run s cs)) = halted_batches (run s cs) /\
  unhalted_only (values (run s cs)) = outcome_map values (unhalted_only (run s cs)) /\
  halted_only (values (run s cs)) = outcome_map values (halted_only (run s cs)).
Proof.
  split; [exact (hom_run _ _ values_hom cs s)|]. split; [intros c; exact (hom_call _ _ values_hom _ c)|].
  split; [exact (hom_halted _ _ values_hom _)|]. exact (hom_views _ _ values_hom _).
Qed.
Print Assumptions C94_values_are_unchanged.
(** The same for execute_act: it makes the same iterations and returns the same values, or raises the same exception. *)
Theorem C94_execute_act (l : layer DualNum) (l' : layer QcNum) init (dep e d : dual) (dep' : Qc) bound check c :
  l_make_controller l init (dep : scl DualNum) = Ok (MCtrl c) -> epsilon c = (e : scl DualNum) -> depression_constant c = (d : scl DualNum) ->
  l_make_controller l' (value_tree init) dep' = Ok (MCtrl (values c)) ->
  l_setup_lazy l' (values c) (value_tree init) = l_setup_lazy l c init -> same_values e d l l' ->
  execute_act l' (value_tree init) dep' bound check =
  outcome_map (fun p => (values (fst p), value_tree (snd p))) (execute_act l init (dep : scl DualNum) bound check).
Proof. exact (hom_execute _ _ values_hom l l' init dep dep' e d bound check c). Qed.
Print Assumptions C94_execute_act.
(** In particular for documented layers, whose parts do to values what they do to the values in pairs. *)
Theorem C94_documented_layers (c0 : state DualNum) (pd : parts DualNum) (pv : parts QcNum) lazy lazy' init (dep : dual) (dep' : Qc) bound check :
  (forall u, p_next pv (value_tree u) = value_tree (p_next pd u) /\
             p_updates pv (value_tree u) = map (fun kv => (fst kv, value_tree (snd kv))) (p_updates pd u) /\
             p_halting pv (value_tree u) = value_array (p_halting pd u)) ->
  lazy' (values c0) (value_tree init) = lazy c0 init ->
  execute_act (layer_of (values c0) pv lazy') (value_tree init) dep' bound check =
  outcome_map (fun p => (values (fst p), value_tree (snd p))) (execute_act (layer_of c0 pd lazy) init (dep : scl DualNum) bound check).
Proof.
  intros P L. eapply C94_execute_act; try reflexivity; [exact L|]. exact (hom_simple _ _ values_hom _ _ _ _ _ _ _ _ P).
Qed.
Print Assumptions C94_documented_layers.
(** No tangents in, no tangents out. *)
Theorem C94_constants (s : state QcNum) (cs : list (call QcNum)) :
  run (constants s) (map constant_call cs) = constants (run s cs) /\
  forall c, apply_call (constants (run s cs)) (constant_call c) = outcome_map constants (apply_call (run s cs) c).
Proof. split; [exact (hom_run _ _ constants_hom cs s)|intros c; exact (hom_call _ _ constants_hom _ c)]. Qed.
Print Assumptions C94_constants.
(** A documented layer with a weight, and what its execution returns. *)
Definition numbers (c : state QcNum) : list (list Q) := map (fun a : array QcNum => map this (a_data a)) [probabilities c; residuals c; iterations c].
Definition tangents (c : state DualNum) : list (list Q) := map (fun a : array DualNum => map (fun x : dual => this (snd x)) (a_data a)) [probabilities c; residuals c; iterations c].
Lemma parts_values u : p_next (parts_q 0) (value_tree u) = value_tree (p_next parts_d u) /\
  p_updates (parts_q 0) (value_tree u) = map (fun kv => (fst kv, value_tree (snd kv))) (p_updates parts_d u) /\
  p_halting (parts_q 0) (value_tree u) = value_array (p_halting parts_d u).
Proof.
  cbn [parts_q parts_d p_next p_updates p_halting]. split; [|split].
  - unfold value_tree. rewrite (move_tree_twice (N := DualNum) (M := DualNum) (P := QcNum) _ fst (fun x : dual => 1 * fst x)%Qc) by reflexivity.
    rewrite (move_tree_twice (N := DualNum) (M := QcNum) (P := QcNum) fst _ (fun x : dual => 1 * fst x)%Qc); [reflexivity|]. intros x. change ((1 + 0) * fst (x : dual) = 1 * fst (x : dual))%Qc. ring.
  - change (updU initU = move_dict (N := DualNum) (M := QcNum) fst (move_dict (N := QcNum) (M := DualNum) constant (updU initU))).
    rewrite (move_dict_twice (N := QcNum) (M := DualNum) (P := QcNum) constant fst (fun x => x)) by reflexivity. symmetry. now apply (move_dict_id (N := QcNum)).
  - destruct u as [a|k cs]; [reflexivity|]. cbn [value_tree move_tree tmap init_h]. unfold value_array.
    rewrite (move_array_twice (N := QcNum) (M := DualNum) (P := QcNum) constant fst (fun x => x)) by reflexivity. symmetry. now apply (move_array_id (N := QcNum)).
Qed.
Example C94_case :
  (forall u, p_next (parts_q 0) (value_tree u) = value_tree (p_next parts_d u) /\
    p_updates (parts_q 0) (value_tree u) = map (fun kv => (fst kv, value_tree (snd kv))) (p_updates parts_d u) /\
    p_halting (parts_q 0) (value_tree u) = value_array (p_halting parts_d u)) /\
  match execute_act (layer_of (dual_state ctl_c) parts_d (fun _ _ => Ok tt)) (dual_tree init_c) ((1, 0)%Qc : dual) 6 true with
  | Ok (c, _) => numbers (values c) = [[1; 1]; [1 # 5; 1 # 5]; [3; 5]]%Q /\ tangents c = [[0; 0]; [-2 # 5; -6 # 5]; [0; 0]]%Q
  | Err _ => False
  end.
Proof. split; [exact parts_values|]. vm_compute. auto. Qed.

(** ** C95 *)
Lemma has_derivative_ext get D Q Q' : (forall t, Q t = Q' t) -> has_derivative get D Q -> has_derivative get D Q'.
Proof. intros E H x Hx. destruct (H x Hx) as (X & A & B). exists X. split; [intros t; now rewrite <- E|exact B]. Qed.
Lemma differentiated_ext i D Q Q' : (forall t, Q t = Q' t) -> differentiated i D Q -> differentiated i D Q'.
Proof.
  intros E (A & B & C & I & G). split; [revert A; apply near_mp; intros t; now rewrite E|].
  repeat split; try (eapply has_derivative_ext; eauto). intros k l j X. eapply has_derivative_ext; [exact E|]. now apply G.
Qed.
(** Along straight lines: every number of the controller and of the calls moves with the speed given by its tangent.
    Unless the element meets a corner, what [jax.jvp] returns are the derivatives, for all its numbers; and it halts
    in the same steps for all parameters close to zero. *)
Theorem C95_tangents_are_derivatives (s : state DualNum) (cs : list (call DualNum)) i :
  (0 < fst (epsilon s : dual))%Qc -> (fst (epsilon s : dual) < 1)%Qc -> (0 <= fst (depression_constant s : dual))%Qc ->
  wf s -> fresh s -> Forall call_wf cs -> i < size (batch_shape s) -> clear_of_corners s cs i ->
  differentiated i (run s cs) (fun t => run (moved t s) (map (moved_call t) cs)).
Proof.
  intros E0 E1 D0 W F C Hi Cl.
  assert (Wl : wf (lined s)) by now apply move_wf.
  assert (Fl : fresh (lined s)) by (apply move_fresh; [reflexivity|exact F]).
  assert (Cw : Forall call_wf (map lined_call cs)) by (apply (move_calls_wf (N := DualNum) (M := CurveNum)); exact C).
  assert (Sc : Forall smooth_call (map lined_call cs)) by (apply Forall_map, Forall_forall; intros c _; apply lined_call_smooth).
  pose proof (history_differentiated (lined s) (map lined_call cs) i E0 E1 D0 Wl Fl (lined_smooth s) Cw Sc (lined_off_corners s cs i Cl) Hi) as H.
  rewrite lined_dual in H. assert (M : map dual_call (map lined_call cs) = cs).
  { rewrite map_map. rewrite <- (map_id cs) at 2. apply map_ext. exact lined_dual_call. }
  rewrite M in H. revert H. apply differentiated_ext. intros t. rewrite lined_at, map_map. f_equal. apply map_ext. intros c. apply lined_call_at.
Qed.
Print Assumptions C95_tangents_are_derivatives.
(** The same along arbitrary smooth curves, as when inputs are computed from weights. *)
Theorem C95_along_curves (s : state CurveNum) (cs : list (call CurveNum)) i :
  (0 < fst (snd (epsilon s : curve)))%Qc -> (fst (snd (epsilon s : curve)) < 1)%Qc -> (0 <= fst (snd (depression_constant s : curve)))%Qc ->
  wf s -> fresh s -> smooth_state s -> Forall call_wf cs -> Forall smooth_call cs -> i < size (batch_shape s) -> off_corners s cs i ->
  differentiated i (run (dual_state s) (map dual_call cs)) (fun t => run (state_at t s) (map (call_at t) cs)).
Proof. intros. now apply history_differentiated. Qed.
Print Assumptions C95_along_curves.
(** execute_act on a documented layer whose parts are differentiable: [jax.jvp] of the execution returns; the executions
    for all parameters return; and the tangents are the derivatives of all numbers of the final controller and
    of the final user state. *)
Theorem C95_execute_act (c0 : state CurveNum) (pc : parts CurveNum) (pq : Qc -> parts QcNum) (pd : parts DualNum)
  lazyq lazyd init (depq : Qc -> Qc) (depd : dual) bound check :
  (0 < fst (snd (epsilon c0 : curve)))%Qc -> (fst (snd (epsilon c0 : curve)) < 1)%Qc -> (0 <= fst (snd (depression_constant c0 : curve)))%Qc ->
  wf c0 -> fresh c0 -> accumulators c0 <> [] -> error_mode c0 = None -> smooth_state c0 -> smooth_tree init ->
  differentiable pc pq pd ->
  (forall t, lazyq t (state_at t c0) (tree_at t init) = Ok tt) -> lazyd (dual_state c0) (dual_tree init) = Ok tt ->
  (forall k, step_fits c0 (p_updates pc (state_after pc k init)) (p_halting pc (state_after pc k init))) ->
  abstract_user (p_next pc init) = abstract_user init ->
  (forall i, i < size (batch_shape c0) -> off_corners c0 (calls_of pc (Z.to_nat (Z.max 0 bound)) init) i) ->
  exists D U Q V,
    execute_act (layer_of (dual_state c0) pd lazyd) (dual_tree init) (depd : scl DualNum) bound check = Ok (D, U) /\
    (forall t, execute_act (layer_of (state_at t c0) (pq t) (lazyq t)) (tree_at t init) (depq t) bound check = Ok (Q t, V t)) /\
    differentiated_near D Q /\
    exists user, smooth_tree user /\ U = dual_tree user /\ near (fun t => V t = tree_at t user).
Proof. exact (execution_differentiated c0 pc pq pd lazyq lazyd init depq depd bound check). Qed.
Print Assumptions C95_execute_act.

(** At a corner the tangent need not be a derivative: halting values of 0 with tangent 1, where [jax.jvp] returns 1/2. *)
Definition corner_call : list (call DualNum) :=
  [CCache "x" (move_tree (N := QcNum) (M := DualNum) constant (u_x 1 2 3 4)); CIter (mkA (N := DualNum) DF32 (mkT [2] [(0, 1); (0, 1)]%Qc))].
Lemma corner_slope (X : Qc -> Qc) : (forall t, t < 0 -> X t = 0)%Qc -> ~ derivative X 0 (Q2Qc (1 # 2)).
Proof.
  intros E (K & d & D & H).
  assert (U : (exists u, 0 < u /\ u < d /\ K * u < Q2Qc (1 # 2))%Qc).
  { destruct (Qclt_le_dec 0 K) as [P|P].
    - set (w := (Q2Qc (1 # 4) / K)%Qc). assert (Kw : (K * w = Q2Qc (1 # 4))%Qc) by (unfold w; field; intros ->; discriminate).
      assert (Pw : (0 < w)%Qc).
      { destruct (Qclt_le_dec 0 w) as [L|L]; [exact L|exfalso]. assert (Y : (K * w <= 0)%Qc).
        { rewrite <- (Qcmult_0_r K). rewrite !(Qcmult_comm K). apply Qcmult_le_compat_r; [exact L|]. now apply Qclt_le_weak. }
        rewrite Kw in Y. apply Y. reflexivity. }
      destruct (Qclt_le_dec w d) as [L|L].
      + exists w. rewrite Kw. repeat split; auto.
      + exists (d * Q2Qc (1 # 2))%Qc. assert (Y : (0 < d * Q2Qc (1 # 2) /\ d * Q2Qc (1 # 2) < d /\ d * Q2Qc (1 # 2) < w)%Qc) by (revert D L; clear; qc).
        destruct Y as (Y1 & Y2 & Y3). split; [exact Y1|]. split; [exact Y2|]. apply Qclt_trans with (K * w)%Qc; [|rewrite Kw; reflexivity].
        rewrite !(Qcmult_comm K). now apply Qcmult_lt_compat_r.
    - exists (d * Q2Qc (1 # 2))%Qc. assert (Y : (0 < d * Q2Qc (1 # 2) /\ d * Q2Qc (1 # 2) < d)%Qc) by (revert D; clear; qc). destruct Y as (Y1 & Y2). split; [exact Y1|]. split; [exact Y2|].
      apply Qcle_lt_trans with 0%Qc; [|reflexivity]. rewrite <- (Qcmult_0_l (d * Q2Qc (1 # 2))). apply Qcmult_le_compat_r; [exact P|now apply Qclt_le_weak]. }
  destruct U as (u & U1 & U2 & U3). destruct (H (- u)%Qc) as [_ L]; [revert U2; clear; qc|revert U1 D; clear; qc|]. rewrite E in L by (revert U1; clear; qc).
  assert (M : (K * u * u < Q2Qc (1 # 2) * u)%Qc) by now apply Qcmult_lt_compat_r.
  replace (K * (- u * - u))%Qc with (K * u * u)%Qc in L by ring. replace (- u * Q2Qc (1 # 2))%Qc with (- (Q2Qc (1 # 2) * u))%Qc in L by ring.
  revert L M. generalize (K * u * u)%Qc (Q2Qc (1 # 2) * u)%Qc. clear. qc.
Qed.
Theorem C95_corners_are_needed : exists (s : state DualNum) cs i,
  (0 < fst (epsilon s : dual))%Qc /\ (fst (epsilon s : dual) < 1)%Qc /\ (0 <= fst (depression_constant s : dual))%Qc /\
  wf s /\ fresh s /\ Forall call_wf cs /\ i < size (batch_shape s) /\
  ~ differentiated i (run s cs) (fun t => run (moved t s) (map (moved_call t) cs)).
Proof.
  exists (constants ctl1), corner_call, 0. split; [reflexivity|]. split; [reflexivity|]. split; [discriminate|].
  split; [apply move_wf; apply ctl1_ok|]. split; [apply move_fresh; [reflexivity|apply ctl1_ok]|]. split; [repeat constructor|]. split; [apply Nat.ltb_lt; reflexivity|].
  intros (_ & P & _).
  set (D := run (constants ctl1) corner_call) in *.
  assert (Ep : option_map (fun x : dual => (this (fst x), this (snd x))) (nth_error (a_data (probabilities D)) 0) = Some (0, 1 # 2)%Q) by (vm_compute; reflexivity).
  specialize (P : forall x : dual, _). destruct (nth_error (a_data (probabilities D)) 0) as [x|]; [|discriminate].
  injection Ep as F1 F2. destruct (P x eq_refl) as (X & HX & DX). clear P.
  assert (Y1 : fst (x : dual) = 0%Qc) by now apply Qc_is_canon; rewrite F1. assert (Y2 : snd (x : dual) = Q2Qc (1 # 2)) by now apply Qc_is_canon; rewrite F2.
  rewrite Y1, Y2 in DX. revert DX. apply corner_slope. intros t Ht.
  assert (W : wf (moved t (constants ctl1))) by (apply move_wf, move_wf, ctl1_ok).
  assert (F : fresh (moved t (constants ctl1))).
  { apply move_fresh; [change (0 + t * 0 = 0)%Qc; ring|]. apply move_fresh; [reflexivity|apply ctl1_ok]. }
  assert (C : Forall call_wf (map (moved_call t) corner_call)) by (apply (move_calls_wf (N := DualNum) (M := QcNum)); repeat constructor).
  rewrite (fo_p _ _ _ (run_follows _ _ W F C) 0 (X t) (HX t)).
  unfold moved_call. rewrite (returned_moved (N := DualNum) (M := QcNum) (along t) _ (constants ctl1) (moved t (constants ctl1)) (like_move _ _ _)).
  rewrite (stats_program_moved (N := DualNum) (M := QcNum)).
  assert (Pg : stats_program 0 (returned (constants ctl1) corner_call) = [Some ((0, 1)%Qc : dual)]) by (vm_compute; reflexivity).
  rewrite Pg. cbn [map option_map]. unfold stats_run. cbn [fold_left stats_event]. unfold stats_step. cbn [cumulative].
  assert (Th : threshold (moved t (constants ctl1)) = Q2Qc (9 # 10)).
  { change (1 - (q 1 10 + t * 0) = Q2Qc (9 # 10))%Qc. replace (q 1 10 + t * 0)%Qc with (q 1 10) by ring. reflexivity. }
  assert (Of : offered (N := QcNum) (v_of_scl QcNum (depression_constant (moved t (constants ctl1)))) (along t ((0, 1)%Qc : dual)) = 0%Qc).
  { unfold offered. fold (clip QcNum (along t ((0, 1)%Qc : dual))). rewrite clip_clamp. unfold along. cbn [fst snd]. replace (0 + t * 1)%Qc with t by ring.
    assert (Z : clamp t = 0%Qc) by (unfold clamp; destruct (Qclt_le_dec t 0) as [_|N]; [reflexivity|exfalso; revert Ht N; clear; qc]). rewrite Z.
    match goal with |- v_mul QcNum ?d _ = _ => change (d * 0 = 0)%Qc end. ring. }
  unfold used, goes_over. rewrite Th, Of. reflexivity.
Qed.
Print Assumptions C95_corners_are_needed.
(** A case for the first theorem: all numbers grow at a rate equal to themselves; element 0 halts in the third
    step. Its residual is 1 - (1/2 + 1/3)(1 + t)(1 + t), since the depression constant grows too; slope -5/3. *)
Example C95_case :
  (0 < fst (epsilon ctl_d : dual))%Qc /\ (fst (epsilon ctl_d : dual) < 1)%Qc /\ (0 <= fst (depression_constant ctl_d : dual))%Qc /\
  wf ctl_d /\ fresh ctl_d /\ Forall call_wf calls_d /\ size (batch_shape ctl_d) = 2 /\ (forall i, i < 2 -> clear_of_corners ctl_d calls_d i) /\
  numbers (values (run ctl_d calls_d)) = [[1; 3 # 4]; [1 # 6; 0]; [3; 3]]%Q /\ tangents (run ctl_d calls_d) = [[0; 3 # 2]; [-5 # 3; 0]; [0; 0]]%Q.
Proof.
  split; [reflexivity|]. split; [reflexivity|]. split; [discriminate|]. split; [exact ctl_d_wf|]. split; [exact ctl_d_fresh|]. split; [exact calls_d_wf|].
  split; [reflexivity|]. split; [exact calls_d_clear|]. split; vm_compute; reflexivity.
Qed.
(** A case for the third. *)
Example C95_case_execute_act :
  (0 < fst (snd (epsilon ctl_c : curve)))%Qc /\ (fst (snd (epsilon ctl_c : curve)) < 1)%Qc /\ (0 <= fst (snd (depression_constant ctl_c : curve)))%Qc /\
  wf ctl_c /\ fresh ctl_c /\ accumulators ctl_c <> [] /\ error_mode ctl_c = None /\ smooth_state ctl_c /\ smooth_tree init_c /\
  differentiable parts_c parts_q parts_d /\
  (forall k, step_fits ctl_c (p_updates parts_c (state_after parts_c k init_c)) (p_halting parts_c (state_after parts_c k init_c))) /\
  abstract_user (p_next parts_c init_c) = abstract_user init_c /\
  (forall i, i < size (batch_shape ctl_c) -> off_corners ctl_c (calls_of parts_c (Z.to_nat (Z.max 0 6)) init_c) i) /\
  (forall i, i < size (batch_shape ctl_c) -> Forall smooth_call (calls_of parts_c 6 init_c)).
Proof.
  split; [reflexivity|]. split; [reflexivity|]. split; [discriminate|]. split; [apply move_wf, ctl0_wf|]. split; [apply move_fresh; [reflexivity|apply ctl0_fresh]|].
  split; [discriminate|]. split; [reflexivity|]. split; [exact ctl_c_smooth|]. split; [apply fixed_tree_smooth|]. split; [exact parts_differentiable|].
  split; [exact parts_fit|]. split; [reflexivity|]. split; [exact ctl_c_clear|].
  intros i _. eapply calls_smooth; [apply fixed_tree_smooth|exact parts_differentiable|exact parts_fit].
Qed.

(** ** C96 *)
(** The tangents of everything about an element in terms of those of its halting values and updates. *)
Theorem C96_tangents (s : state DualNum) (cs : list (call DualNum)) i :
  (0 < fst (epsilon s : dual))%Qc -> (fst (epsilon s : dual) <= 1)%Qc -> (0 <= fst (depression_constant s : dual))%Qc ->
  wf s -> fresh s -> Forall call_wf cs -> Forall (fun c => c <> CReset) cs ->
  let vs : list dual := values_of i (returned s cs) in
  let thr := (1 - fst (epsilon s : dual))%Qc in
  let hs := map (fun v => fst (depression_constant s : dual) * clamp (fst v))%Qc vs in
  let hs' := effective_tangents (depression_constant s) vs in
  let n := halting_step thr 0 hs in
  (forall p : dual, (probabilities (run s cs)).[i] = Some p -> snd p = match n with None => total hs' | Some _ => 0%Qc end) /\
  (forall r : dual, (residuals (run s cs)).[i] = Some r -> snd r = match n with None => 0 | Some n => - total (firstn n hs') end%Qc) /\
  (forall m : dual, (iterations (run s cs)).[i] = Some m -> snd m = 0%Qc) /\
  (forall k l j (x d : dual), belongs (run s cs) k l j i -> entry (run s cs) k l j = Some x -> update_at k l j (defaults s) = Some d ->
     exists es : list (dual * dual), value_program i k l j (returned s cs) (map Some es) /\ map fst es = vs /\
       snd x = (snd d + dot (act_weights thr hs) (map (fun e => snd (snd e)) es) + dot hs' (value_slopes n (map (fun e => fst (snd e)) es)))%Qc).
Proof.
  intros E0 E1 D0 W F C NR vs thr hs hs' n. pose proof (run_follows s cs W F C) as T.
  assert (NR' : Forall (fun c => c <> CReset) (returned s cs)).
  { apply Forall_forall. intros c Hc. rewrite Forall_forall in NR. apply NR. revert Hc. clear. revert s. induction cs as [|x cs IH]; intros s Hc; cbn [returned] in Hc; [exact Hc|].
    destruct (apply_call s x); [destruct Hc as [->|Hc]; [now left|right; eauto]|right; eauto]. }
  set (th := s_one_sub DualNum (epsilon s) : dual). set (dp := depression_constant s : dual).
  assert (T1 : (fst th < 1)%Qc) by (unfold th; cbn; revert E0; clear; qc). assert (T0 : (0 <= fst th)%Qc) by (unfold th; cbn; revert E1; clear; qc).
  pose proof (tangents_run th dp T1 D0 vs (stats0 (N := DualNum)) T0) as [R1 R2]. cbn zeta in R1, R2.
  assert (Sp : stats_program i (returned s cs) = map Some vs) by exact (stats_program_values (N := DualNum) i _ NR').
  change (halting_step (fst th) (fst (cumulative (stats0 (N := DualNum)) : dual)) (offers_of dp vs)) with n in R2.
  split; [|split; [|split]].
  - intros p Hp. rewrite (fo_p _ _ _ T i p Hp), Sp. destruct n as [m|]; destruct R2 as [R2 _]; (etransitivity; [exact R2|]); [reflexivity|]. change (0 + total hs' = total hs')%Qc. ring.
  - intros p Hp. rewrite (fo_r _ _ _ T i p Hp), Sp. destruct n as [m|]; destruct R2 as [_ R2]; (etransitivity; [exact R2|]); [|reflexivity]. change (- 0 - total (firstn m hs') = - total (firstn m hs'))%Qc. ring.
  - intros p Hp. rewrite (fo_i _ _ _ T i p Hp), Sp. exact R1.
  - intros k l j x d (Tt & a & R & HT & Ha & HR & Hj) Hx Hd. unfold entry, update_at in Hx. rewrite HT, Ha in Hx. unfold update_at in Hd.
    destruct (dget k (defaults s)) as [dt|] eqn:Hdt; [|discriminate]. destruct (nth_error (leaves dt) l) as [dl|] eqn:Hdl; [|discriminate].
    assert (HR' : a_shape a = batch_shape s ++ R) by (rewrite HR; f_equal; exact (frame_shape _ _ (fo_frame _ _ _ T))).
    destruct (fo_acc _ _ _ T k Tt dt HT Hdt l a dl Ha Hdl R HR' j x d Hx Hd) as (prog & Pr & V). rewrite Hj in Pr.
    destruct (value_program_values _ _ _ _ _ _ NR' Pr) as (es & -> & Es). exists es. split; [exact Pr|]. split; [exact Es|]. rewrite V.
    pose proof (tangent_value_formula th dp T1 D0 d es d T0) as Y. cbn zeta in Y. etransitivity; [exact Y|].
    change (map (fun e : dual * dual => fst e) es) with (map fst es). assert (Es' : map fst es = vs) by exact Es. rewrite Es'. reflexivity.
Qed.
Print Assumptions C96_tangents.
(** Tangents are linear: multiplying all of them by a number does so to all results. *)
Theorem C96_scaling (k : Qc) (s : state DualNum) (cs : list (call DualNum)) :
  run (stretched k s) (map (stretched_call k) cs) = stretched k (run s cs) /\
  forall c, apply_call (stretched k (run s cs)) (stretched_call k c) = outcome_map (stretched k) (apply_call (run s cs) c).
Proof. split; [exact (hom_run _ _ (stretch_hom k) cs s)|intros c; exact (hom_call _ _ (stretch_hom k) _ c)]. Qed.
Print Assumptions C96_scaling.
(** The tangents of the results are linear in those of what goes in: numbers with two tangents (Dual2.v) give results with two
    tangents, and whatever combination goes in, the same combination comes out. *)
Lemma choose_combine a b z x y : choose z (combine a b x) (combine a b y) =
  (z, (a * snd (choose z (combine 1 0 x) (combine 1 0 y)) + b * snd (choose z (combine 0 1 x) (combine 0 1 y)))%Qc).
Proof. unfold choose, combine. apply injective_projections; cbn [fst snd]; [reflexivity|ring]. Qed.
Lemma combine_hom a b : homomorphism (N := TwoNum) (M := DualNum) (combine a b) (combine a b).
Proof.
  constructor; intros; try reflexivity.
  1,2,3,4,5,8: apply injective_projections; cbn; [reflexivity|qring].
  all: exact (choose_combine a b _ x y).
Qed.
Theorem C96_superposition (s : state TwoNum) (cs : list (call TwoNum)) :
  exists R : state TwoNum, forall a b, run (combined a b s) (map (combined_call a b) cs) = combined a b R.
Proof. exists (run s cs). intros a b. exact (hom_run _ _ (combine_hom a b) cs s). Qed.
Print Assumptions C96_superposition.
Definition spread (x : Qc) : two := (x, (x, 1%Qc)).
Definition ctl_two : state TwoNum := move (N := QcNum) (M := TwoNum) spread spread ctl2.
Definition calls_two : list (call TwoNum) := map (move_call (N := QcNum) (M := TwoNum) spread) calls2.
Definition residual_tangents (a b : Qc) : list Q :=
  map (fun v : dual => this (snd v)) (a_data (residuals (run (combined a b ctl_two) (map (combined_call a b) calls_two)))).
Example C96_case_superposition :
  residual_tangents 1 0 = [-1; -1 # 2]%Q /\ residual_tangents 0 1 = [-5 # 2; -9 # 4]%Q /\ residual_tangents (q 2 1) (q 3 1) = [-19 # 2; -31 # 4]%Q.
Proof. repeat split; vm_compute; reflexivity. Qed.
(** Element 0 of the previous case halts in step 2 (counted from 0); its first entry of "x": default 1 with tangent
    1, updates 1, 5, 2 with weights 1/2, 1/3, 1/6. *)
Example C96_case : let vs : list dual := values_of 0 (returned ctl_d calls_d) in
  Forall (fun c => c <> CReset) calls_d /\
  map (fun v : dual => (this (fst v), this (snd v))) vs = [(1 # 2, 1 # 2); (1 # 3, 1 # 3); (1 # 3, 1 # 3)]%Q /\
  belongs (run ctl_d calls_d) "x" 0 0 0 /\
  option_map (fun x : dual => (this (fst x), this (snd x))) (entry (run ctl_d calls_d) "x" 0 0) = Some (7 # 2, 9 # 2)%Q.
Proof.
  cbn zeta. split; [repeat constructor; discriminate|]. split; [vm_compute; reflexivity|]. split; [|vm_compute; reflexivity].
  apply (belongs_shapes _ _ _ _ _ [2] [[2; 2]]); vm_compute; reflexivity.
Qed.
