(** * C97: how long a computation takes. Vocabulary: PaceSpec.v, History.v, ElementSpec.v, LayerSpec.v. *)
From Coq Require Import QArith Qround Qcanon Lia ZArith.
From Verif Require Import Base PyTree Tensor Num Utils States Controller Builder Layers Wf Spec History ElementSpec BuilderSpec LayerSpec LoopSpec StateSpec TraceSpec SlopeSpec PaceSpec.
From Verif Require Import BaseFacts QcFacts SpecFacts ControllerFacts HistoryFacts GravesFacts ExactFacts ScriptFacts TraceFacts SlopeFacts PaceFacts Samples PropsController PropsLayers PropsSlope PropsLoop.
Close Scope Qc_scope. Close Scope Q_scope. Close Scope Z_scope. Open Scope string_scope. Open Scope list_scope. Open Scope nat_scope.

(** ** Halting values between [lo] and [hi]. [N] iterations were committed; the element made [k] of them.
    If [m] steps of the smallest size exceed the threshold, the element halts within [m] steps; if [m] of the largest size
    do not, it does not halt within [m] steps. *)
Theorem C97_bounds (s0 : st) (cs : list (call QcNum)) i lo hi p r n :
  (0 < epsilon s0)%Qc -> (epsilon s0 <= 1)%Qc -> (0 <= depression_constant s0)%Qc ->
  wf s0 -> fresh s0 -> Forall call_wf cs -> Forall (fun c => c <> CReset) cs ->
  (0 <= lo)%Qc -> (lo <= hi)%Qc -> Forall (between lo hi) (values_of i cs) ->
  element (run s0 cs) i p r n ->
  let T := (1 - epsilon s0)%Qc in let d := depression_constant s0 in
  let N := length (values_of i (returned s0 cs)) in
  exists k, n = Qc_of_nat k /\ k <= N /\
    (forall m, (T < Qc_of_nat m * (d * lo))%Qc -> k <= m /\ (m <= N -> halted (run s0 cs) i = Some true)) /\
    (forall m, (Qc_of_nat m * (d * hi) <= T)%Qc -> Nat.min m N <= k /\ (halted (run s0 cs) i = Some true -> m < k)) /\
    (halted (run s0 cs) i = Some true ->
       1 <= k /\ (1 - Qc_of_nat (k - 1) * (d * hi) <= r /\ r <= 1 - Qc_of_nat (k - 1) * (d * lo))%Qc) /\
    (halted (run s0 cs) i = Some false -> k = N).
Proof.
  intros He He1 Hd W F Hc NR L0 LH V (Ep & Er & En) T d N.
  destruct (C05_controller_computes_graves_act s0 cs He He1 Hd W F Hc i) as (_ & Sr & Sn & Sh & _).
  set (hs := element_hs s0 i cs) in *. fold T in Sr, Sn, Sh.
  assert (Hh : halted (run s0 cs) i = Some (act_halted T hs)).
  { pose proof (halted_get _ _ _ Ep) as X. rewrite <- (Sh _ X). exact X. }
  assert (EH : hs = effective s0 (values_of i (returned s0 cs))) by now apply element_hs_values.
  assert (V' : Forall (between lo hi) (values_of i (returned s0 cs))).
  { assert (A : Forall (fun c : call QcNum => Forall (between lo hi) (value_of i c)) cs).
    { unfold values_of in V. clear - V. induction cs as [|c cs IH]; constructor; cbn in V; apply Forall_app in V as [V1 V2]; auto. }
    apply (returned_all _ s0) in A. unfold values_of. clear - A. induction A; cbn; [constructor|]. now apply Forall_app. }
  assert (B : Forall (fun h => d * lo <= h /\ h <= d * hi)%Qc hs) by (rewrite EH; now apply scaled_between).
  assert (NL : length hs = N) by (rewrite EH; unfold effective; now rewrite map_length).
  assert (T0 : (0 <= T)%Qc) by (unfold T; revert He1; clear; qc).
  assert (A0 : (0 <= d * lo)%Qc) by now apply Qcmult_nonneg.
  assert (B0 : (0 <= d * hi)%Qc) by (apply Qcmult_nonneg; [exact Hd|now apply Qcle_trans with lo]).
  exists (act_iterations T hs). split; [now apply Sn|]. rewrite <- NL, Hh. split; [apply pace_length|].
  split; [intros m M; destruct (pace_at_most T _ _ hs T0 A0 B m M) as [X Y]; split; [exact X|intros Z; now rewrite Y]|].
  split; [intros m M; destruct (pace_at_least T _ _ hs T0 B0 B m M) as [X Y]; split; [exact X|intros [= Z]; now apply Y]|].
  split.
  - intros [= H]. destruct (pace_halted T _ _ hs T0 B H) as (K & _ & _ & R1 & R2). rewrite (Sr _ Er). auto.
  - intros [= H]. now destruct (pace_not_halted T _ _ hs T0 B H).
Qed.
Print Assumptions C97_bounds.

(** ** The same halting value all the time: the element halts in the first step [N] with [N * d * h] above the threshold. *)
Theorem C97_steady (s0 : st) (cs : list (call QcNum)) i h N p r n :
  (0 < epsilon s0)%Qc -> (epsilon s0 <= 1)%Qc -> (0 <= depression_constant s0)%Qc ->
  wf s0 -> fresh s0 -> Forall call_wf cs -> Forall (fun c => c <> CReset) cs ->
  Forall (fun v => v = h) (values_of i cs) -> element (run s0 cs) i p r n ->
  let T := (1 - epsilon s0)%Qc in let x := (depression_constant s0 * clamp h)%Qc in
  let commits := length (values_of i (returned s0 cs)) in
  steps_needed T x N ->
  (N <= commits -> halted (run s0 cs) i = Some true /\ n = Qc_of_nat N /\ (r = 1 - Qc_of_nat (N - 1) * x)%Qc /\ p = 1%Qc) /\
  (commits < N -> halted (run s0 cs) i = Some false /\ n = Qc_of_nat commits /\ r = 0%Qc /\ (p = Qc_of_nat commits * x)%Qc).
Proof.
  intros He He1 Hd W F Hc NR V (Ep & Er & En) T x commits SN.
  destruct (C05_controller_computes_graves_act s0 cs He He1 Hd W F Hc i) as (Sp & Sr & Sn & Sh & _).
  assert (V' : Forall (fun v => v = h) (values_of i (returned s0 cs))).
  { assert (A : Forall (fun c : call QcNum => Forall (fun v => v = h) (value_of i c)) cs).
    { unfold values_of in V. clear - V. induction cs as [|c cs IH]; constructor; cbn in V; apply Forall_app in V as [V1 V2]; auto. }
    apply (returned_all _ s0) in A. unfold values_of. clear - A. induction A; cbn; [constructor|]. now apply Forall_app. }
  assert (EH : element_hs s0 i cs = repeat x commits).
  { rewrite element_hs_values by exact NR. unfold effective, commits. clear - V'. induction V' as [|v vs E V IH]; [reflexivity|]. cbn. rewrite E, IH. reflexivity. }
  rewrite EH in *. fold T in Sp, Sr, Sn, Sh.
  assert (T0 : (0 <= T)%Qc) by (unfold T; revert He1; clear; qc).
  assert (N1 := steps_positive T x N T0 SN). pose proof (steady_step T x N commits SN N1) as St.
  assert (Hh : halted (run s0 cs) i = Some (act_halted T (repeat x commits))).
  { pose proof (halted_get _ _ _ Ep) as X. rewrite <- (Sh _ X). exact X. }
  specialize (Sp _ Ep). specialize (Sr _ Er). specialize (Sn _ En). unfold act_probability, act_weights in Sp. unfold act_residual in Sr. unfold act_iterations in Sn. unfold act_halted in Hh.
  rewrite St in *. destruct (Nat.leb_spec N commits) as [L|L].
  - split; [intros _|intros; lia]. replace (S (N - 1)) with N in Sn by lia. rewrite firstn_repeat in Sr by lia. rewrite total_repeat in Sr.
    split; [exact Hh|]. split; [exact Sn|]. split; [exact Sr|]. rewrite Sp, total_app. cbn [total]. rewrite total_repeat0. match goal with |- ?a = ?b => change (@eq Qc a b) end. ring.
  - split; [intros; lia|intros _]. rewrite repeat_length in Sn. rewrite total_repeat in Sp. auto.
Qed.
Print Assumptions C97_steady.
(** Such an [N] exists, and is one more than the integer part of T / (d * h): *)
Theorem C97_number_of_steps (T x : Qc) N : (0 <= T)%Qc -> (0 < x)%Qc ->
  (steps_needed T x N <-> Z.of_nat N = (Qfloor (this (T / x)%Qc) + 1)%Z) /\ exists N, steps_needed T x N.
Proof.
  intros T0 X. split; [|now apply steps_exist].
  assert (Nz : x <> 0%Qc) by (intros E; rewrite E in X; discriminate).
  assert (Q : T = ((T / x) * x)%Qc) by now field.
  assert (G : forall m : nat, (Qc_of_nat m * x <= T)%Qc <-> (Z.of_nat m <= Qfloor (this (T / x)%Qc))%Z).
  { intros m. assert (E : (Qc_of_nat m * x <= T)%Qc <-> (Qc_of_nat m <= T / x)%Qc).
    { rewrite Q at 1. split; intros H.
      - destruct (Qclt_le_dec (T / x) (Qc_of_nat m)) as [C|C]; [exfalso|exact C].
        assert (Y : (T / x * x < Qc_of_nat m * x)%Qc) by now apply Qcmult_lt_compat_r. revert H Y. generalize (T / x * x)%Qc (Qc_of_nat m * x)%Qc. clear. qc.
      - apply Qcmult_le_compat_r; [exact H|now apply Qclt_le_weak]. }
    rewrite E. unfold Qcle, Qc_of_nat, Q2Qc. cbn [this]. rewrite Qred_correct. split; intros H.
    - rewrite <- (Qfloor_Z (Z.of_nat m)). now apply Qfloor_resp_le.
    - apply Qle_trans with (inject_Z (Qfloor (this (T / x)%Qc))); [now rewrite <- Zle_Qle|apply Qfloor_le]. }
  unfold steps_needed. assert (G' : forall m : nat, (T < Qc_of_nat m * x)%Qc <-> (Qfloor (this (T / x)%Qc) < Z.of_nat m)%Z).
  { intros m. specialize (G m). split; intros H.
    - destruct (Z_lt_le_dec (Qfloor (this (T / x)%Qc)) (Z.of_nat m)) as [C|C]; [exact C|exfalso]. apply G in C. revert H C. generalize (Qc_of_nat m * x)%Qc. clear. qc.
    - destruct (Qclt_le_dec T (Qc_of_nat m * x)) as [C|C]; [exact C|exfalso]. apply G in C. lia. }
  assert (P : (0 <= Qfloor (this (T / x)%Qc))%Z). { apply (G 0). rewrite of_nat_0. replace (0 * x)%Qc with 0%Qc by ring. exact T0. }
  rewrite G'. split; [intros [A B]|intros E].
  - specialize (B (N - 1)). rewrite G in B. lia.
  - split; [lia|]. intros m M. apply G. lia.
Qed.
Print Assumptions C97_number_of_steps.

(** ** Probability depression: dividing the depression constant by [k] makes a steady computation [k] times as long, up to
    fewer than [k] steps. *)
Theorem C97_depression_lengthens (T d h : Qc) (k N N' : nat) : (0 <= T)%Qc -> (0 <= d)%Qc -> (0 <= h)%Qc -> 0 < k ->
  steps_needed T (d * h) N -> steps_needed T (d / Qc_of_nat k * h) N' -> k * (N - 1) < N' <= k * N.
Proof.
  intros T0 D0 H0 K S1 S2. assert (N1 := steps_positive _ _ _ T0 S1). destruct S1 as [H1 L1]. destruct S2 as [H2 L2].
  assert (Kp : (0 < Qc_of_nat k)%Qc) by (destruct k as [|k']; [lia|]; rewrite of_nat_S; generalize (of_nat_nonneg k'); generalize (Qc_of_nat k'); clear; qc).
  assert (Nz : Qc_of_nat k <> 0%Qc) by (intros E; rewrite E in Kp; discriminate).
  assert (Sc : forall m, (Qc_of_nat (k * m) * (d / Qc_of_nat k * h) = Qc_of_nat m * (d * h))%Qc).
  { intros m. rewrite of_nat_mul. field. exact Nz. }
  split.
  - specialize (L1 (N - 1) ltac:(lia)). rewrite <- Sc in L1. destruct (Nat.lt_ge_cases (k * (N - 1)) N') as [C|C]; [exact C|exfalso].
    assert (Ps : (0 <= d / Qc_of_nat k * h)%Qc).
    { apply Qcmult_nonneg; [|exact H0]. destruct (Qclt_le_dec (d / Qc_of_nat k) 0) as [C'|C']; [exfalso|exact C'].
      assert (X : (d / Qc_of_nat k * Qc_of_nat k < 0 * Qc_of_nat k)%Qc) by now apply Qcmult_lt_compat_r.
      replace (d / Qc_of_nat k * Qc_of_nat k)%Qc with d in X by now field. replace (0 * Qc_of_nat k)%Qc with 0%Qc in X by ring. revert X D0. clear. qc. }
    assert (Y : (Qc_of_nat N' * (d / Qc_of_nat k * h) <= Qc_of_nat (k * (N - 1)) * (d / Qc_of_nat k * h))%Qc) by (apply Qcmult_le_compat_r; [apply of_nat_le; lia|exact Ps]).
    revert H2 Y L1. generalize (Qc_of_nat (k * (N - 1)) * (d / Qc_of_nat k * h))%Qc (Qc_of_nat N' * (d / Qc_of_nat k * h))%Qc. clear. qc.
  - destruct (Nat.lt_ge_cases (k * N) N') as [C|C]; [exfalso|exact C]. specialize (L2 _ C). rewrite Sc in L2. revert H1 L2. generalize (Qc_of_nat N * (d * h))%Qc. clear. qc.
Qed.
Print Assumptions C97_depression_lengthens.

(** ** [execute_act] on layers in the style of the docstring: the number of iterations of the loop. *)
Lemma offers_between d next (halt : tr -> array QcNum) init i n lo hi :
  (0 <= d)%Qc -> (forall k, i < length (a_data (halt (nth_state next k init)))) ->
  (forall k i v, (halt (nth_state next k init)).[i] = Some v -> between lo hi v) ->
  Forall (fun h => d * lo <= h /\ h <= d * hi)%Qc (offers d next halt init i n).
Proof.
  intros D L H. unfold offers. rewrite <- (map_map (fun k => nth i (a_data (halt (nth_state next k init))) 0%Qc) (fun v => d * clamp v)%Qc).
  apply scaled_between; [exact D|]. apply Forall_map, Forall_forall. intros k _. apply (H k i).
  specialize (L k). exact (nth_error_nth' _ 0%Qc L).
Qed.
Theorem C97_execute_act (c0 : st) next upd halt lazy init dep bound check c' u' lo hi :
  (0 < epsilon c0)%Qc -> (epsilon c0 <= 1)%Qc -> (0 <= depression_constant c0)%Qc -> wf c0 -> fresh c0 -> 0 < size (batch_shape c0) ->
  (forall k, step_fits c0 (upd (nth_state next k init)) (halt (nth_state next k init))) ->
  (0 <= lo)%Qc -> (lo <= hi)%Qc -> (forall k i v, (halt (nth_state next k init)).[i] = Some v -> between lo hi v) ->
  execute_act (simple_layer c0 next upd halt lazy) init dep bound check = Ok (c', u') ->
  let T := (1 - epsilon c0)%Qc in let d := depression_constant c0 in
  exists n, u' = nth_state next n init /\ (Z.of_nat n <= Z.max 0 bound)%Z /\
    (forall m, (T < Qc_of_nat m * (d * lo))%Qc -> n <= m) /\
    (forall m, (Qc_of_nat m * (d * hi) <= T)%Qc -> (Z.of_nat m < bound)%Z -> m < n) /\
    (forall m, (T < Qc_of_nat m * (d * lo))%Qc -> (Z.of_nat m <= bound)%Z ->
       forall i, i < size (batch_shape c0) -> (probabilities c').[i] = Some 1%Qc).
Proof.
  intros He He1 Hd W F Sz Fi L0 LH V E T d.
  destruct (C71_execute_act_computes_act c0 next upd halt lazy init dep bound check c' u' He He1 Hd W F Fi E) as (n & -> & Bd & Before & After & Res).
  exists n. split; [reflexivity|]. split; [exact Bd|]. fold T d in Before, After, Res.
  assert (T0 : (0 <= T)%Qc) by (unfold T; revert He1; clear; qc).
  assert (A0 : (0 <= d * lo)%Qc) by now apply Qcmult_nonneg.
  assert (B0 : (0 <= d * hi)%Qc) by (apply Qcmult_nonneg; [exact Hd|now apply Qcle_trans with lo]).
  assert (Le : forall i, i < size (batch_shape c0) -> forall k, i < length (a_data (halt (nth_state next k init)))).
  { intros i I k. destruct (Fi k) as (_ & _ & _ & Aw & Sh & _). unfold awf, twf in Aw. unfold a_shape in Sh. rewrite Sh in Aw. unfold a_data. rewrite Aw. exact I. }
  assert (B : forall i m, i < size (batch_shape c0) -> Forall (fun h => d * lo <= h /\ h <= d * hi)%Qc (offers d next halt init i m)) by (intros i m I; apply offers_between; auto).
  assert (OL : forall i m, length (offers d next halt init i m) = m) by (intros i m; unfold offers; now rewrite map_length, seq_length).
  assert (Up : forall m, (T < Qc_of_nat m * (d * lo))%Qc -> n <= m).
  { intros m M. destruct (Nat.le_gt_cases n m) as [C|C]; [exact C|exfalso]. destruct (Before m C) as (i & I & X).
    destruct (pace_at_most T _ _ _ T0 A0 (B i m I) m M) as [_ Y]. rewrite OL in Y. specialize (Y (le_n m)). congruence. }
  split; [exact Up|]. split.
  - intros m M Mb. destruct (Nat.le_gt_cases n m) as [C|C]; [exfalso|exact C]. destruct After as [X|X]; [lia|].
    specialize (X 0 Sz). destruct (pace_at_least T _ _ _ T0 B0 (B 0 n Sz) m M) as [_ Y]. specialize (Y X).
    pose proof (pace_length T (offers d next halt init 0 n)) as Z. rewrite OL in Z. lia.
  - intros m M Mb i I. destruct (Res i I) as (P & _). rewrite P. f_equal.
    assert (Hh : act_halted T (offers d next halt init i n) = true).
    { destruct After as [X|X]; [|now apply X]. specialize (Up m M). assert (n = m) by lia. subst m.
      apply (pace_at_most T _ _ _ T0 A0 (B i n I) n M). now rewrite OL. }
    now rewrite act_probability_cases, Hh.
Qed.
Print Assumptions C97_execute_act.
(** With the same halting value for all elements and iterations: exactly as many iterations as needed, unless the bound is lower. *)
Theorem C97_execute_act_steady (c0 : st) next upd halt lazy init dep bound check c' u' h N :
  (0 < epsilon c0)%Qc -> (epsilon c0 <= 1)%Qc -> (0 <= depression_constant c0)%Qc -> wf c0 -> fresh c0 -> 0 < size (batch_shape c0) ->
  (forall k, step_fits c0 (upd (nth_state next k init)) (halt (nth_state next k init))) ->
  (forall k i v, (halt (nth_state next k init)).[i] = Some v -> v = h) ->
  execute_act (simple_layer c0 next upd halt lazy) init dep bound check = Ok (c', u') ->
  steps_needed (1 - epsilon c0) (depression_constant c0 * clamp h) N ->
  exists n, u' = nth_state next n init /\ Z.of_nat n = Z.min (Z.of_nat N) (Z.max 0 bound).
Proof.
  intros He He1 Hd W F Sz Fi V E SN.
  assert (T0 : (0 <= 1 - epsilon c0)%Qc) by (revert He1; clear; qc). assert (N1 := steps_positive _ _ _ T0 SN). destruct SN as [Hi Lo].
  destruct (C97_execute_act c0 next upd halt lazy init dep bound check c' u' (clamp h) (clamp h) He He1 Hd W F Sz Fi) as (n & U & Bd & Up & Dn & _); auto.
  - apply clamp_range.
  - apply Qcle_refl.
  - intros k i v X. rewrite (V k i v X). split; apply Qcle_refl.
  - exists n. split; [exact U|]. specialize (Up N Hi).
    destruct (Z_lt_le_dec (Z.of_nat N - 1) bound) as [C|C].
    + specialize (Dn (N - 1) (Lo (N - 1) ltac:(lia)) ltac:(lia)). lia.
    + destruct (Z_lt_le_dec 0 bound) as [P|P]; [|lia]. specialize (Dn (Z.to_nat (bound - 1)) (Lo (Z.to_nat (bound - 1)) ltac:(lia)) ltac:(lia)). lia.
Qed.
Print Assumptions C97_execute_act_steady.

(** The example of docs (ACT with long sequence duration): halting values around 1/2 halt after two steps; with a depression
    constant of 1/10 after about 20. *)
Definition ctl_tenth : st := mkState (epsilon ctl0) (iterations ctl0) (residuals ctl0) (probabilities ctl0) (defaults ctl0)
  (accumulators ctl0) (updates ctl0) (q 1 10) None.
Definition initH : tr := Leaf (hp (q 1 2) (q 1 2)).
Definition layH (c : st) : layer QcNum := simple_layer c nextU updU haltU (fun _ _ => Ok tt).
Lemma tenth_wf : wf ctl_tenth.
Proof. destruct ctl0_wf. split; assumption. Qed.
Lemma initH_stays k : nth_state nextU k initH = initH.
Proof. induction k as [|k IH]; [reflexivity|exact IH]. Qed.
Lemma layH_fits k : step_fits ctl_tenth (updU (nth_state nextU k initH)) (haltU (nth_state nextU k initH)).
Proof.
  rewrite initH_stays. unfold updU. split; [repeat constructor; cbn; intuition discriminate|]. split.
  { intros x. change (dkeys (accumulators ctl_tenth)) with ["x"; "y"]. cbn. tauto. }
  split; [|repeat split]. intros x t v Ht Hv. cbn [dget] in Hv.
  destruct (String.eqb_spec x "y") as [->|]; [|destruct (String.eqb_spec x "x") as [->|]; [|discriminate]];
    injection Hv as <-; apply Some_inj in Ht; subst t; (split; [reflexivity|]); split; repeat constructor.
Qed.
Lemma steps_from (T x : Qc) n : (0 <= x)%Qc -> (T < Qc_of_nat (S n) * x)%Qc -> (Qc_of_nat n * x <= T)%Qc -> steps_needed T x (S n).
Proof.
  intros X A B. split; [exact A|]. intros m M. apply Qcle_trans with (Qc_of_nat n * x)%Qc; [|exact B].
  apply Qcmult_le_compat_r; [apply of_nat_le; lia|exact X].
Qed.
Example C97_case : (0 < epsilon ctl_tenth)%Qc /\ (epsilon ctl_tenth <= 1)%Qc /\ (0 <= depression_constant ctl_tenth)%Qc /\ wf ctl_tenth /\ fresh ctl_tenth /\
  0 < size (batch_shape ctl_tenth) /\ (forall k, step_fits ctl_tenth (updU (nth_state nextU k initH)) (haltU (nth_state nextU k initH))) /\
  (forall k i v, (haltU (nth_state nextU k initH)).[i] = Some v -> v = q 1 2) /\
  stats_of (execute_act (layH ctl0) initH (q 1 1) 100 true) = [[1; 1]; [1 # 2; 1 # 2]; [2; 2]]%Q /\
  stats_of (execute_act (layH ctl_tenth) initH (q 1 1) 100 true) = [[1; 1]; [1 # 10; 1 # 10]; [19; 19]]%Q /\
  steps_needed (1 - epsilon ctl_tenth) (depression_constant ctl_tenth * clamp (q 1 2)) 19 /\
  steps_needed (1 - epsilon ctl0) (depression_constant ctl0 * clamp (q 1 2)) 2 /\
  (depression_constant ctl_tenth = depression_constant ctl0 / Qc_of_nat 10)%Qc.
Proof.
  split; [cq|]. split; [cq|]. split; [cq|]. split; [exact tenth_wf|]. split; [exact ctl0_fresh|]. split; [now apply Nat.ltb_lt|]. split; [exact layH_fits|].
  split; [intros k i v; rewrite initH_stays; destruct i as [|[|i]]; [intros [= <-]; reflexivity|intros [= <-]; reflexivity|destruct i; discriminate]|].
  split; [vm|]. split; [vm|]. split; [apply steps_from; cq|]. split; [apply steps_from; cq|]. apply Qc_is_canon. vm_compute. reflexivity.
Qed.
(** A history: halting values between 1/4 and 1/2. *)
Definition calls_p : list (call QcNum) := loop_calls nextU updU haltU 3 initH ++ loop_calls nextU updU haltU 3 (Leaf (hp (q 1 4) (q 1 3))).
Example C97_case_bounds : Forall call_wf calls_p /\ Forall (fun c => c <> CReset) calls_p /\ Forall (between (q 1 4) (q 1 2)) (values_of 0 calls_p) /\
  length (values_of 0 (returned ctl_tenth calls_p)) = 6 /\ map this (a_data (probabilities (run ctl_tenth calls_p))) = [9 # 40; 1 # 4]%Q.
Proof.
  split; [repeat constructor|]. split; [repeat constructor; discriminate|]. split; [repeat constructor; cq|]. split; vm.
Qed.
