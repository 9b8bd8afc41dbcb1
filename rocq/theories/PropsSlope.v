(** * C75, C76: how results depend on halting probabilities and on updates. Vocabulary: SlopeSpec.v. *)
From Coq Require Import QArith Qcanon Lia.
From Verif Require Import Base PyTree Tensor Num Utils States Controller Builder Wf Spec History ElementSpec BuilderSpec TraceSpec SlopeSpec.
From Verif Require Import BaseFacts QcFacts SpecFacts ControllerFacts HistoryFacts GravesFacts ScriptFacts TraceFacts SlopeFacts Samples PropsController.
Close Scope Qc_scope. Close Scope Q_scope. Open Scope string_scope. Open Scope list_scope. Open Scope nat_scope.

Lemma log_snd_length (s0 : st) i cs : length (past (element_log s0 i cs)) = length (element_hs s0 i cs).
Proof. unfold element_hs, effective. now rewrite !map_length. Qed.
Lemma element_hs_values (s0 : st) i cs : Forall (fun c => c <> CReset) cs ->
  element_hs s0 i cs = effective s0 (values_of i (returned s0 cs)).
Proof.
  intros F. unfold element_hs, element_log, log_of. now rewrite log_values by now apply returned_all.
Qed.
Lemma nudged_no_reset i d cs cs' : Forall2 (nudged i d) cs cs' -> Forall (fun c => c <> CReset) cs /\ Forall (fun c => c <> CReset) cs'.
Proof.
  induction 1 as [|c c' cs cs' H F [A B]]; split; constructor; auto; destruct c, c'; cbn in H; try contradiction; discriminate.
Qed.

(** ** C75: no running total of the effective halting probabilities of element [i] lies exactly on the
    halting threshold. Then changing its halting values by less than some [delta] (and those of the other
    elements arbitrarily) changes neither its halting nor its iteration count, and changes its
    probability, residual and accumulator entries by exactly the stated linear functions of the changes. *)
Theorem C75_results_are_locally_affine (s0 : st) (cs : list (call QcNum)) i :
  (0 < epsilon s0)%Qc -> (epsilon s0 <= 1)%Qc -> (0 <= depression_constant s0)%Qc ->
  wf s0 -> fresh s0 -> Forall call_wf cs -> Forall (fun c => c <> CReset) cs -> i < size (batch_shape s0) ->
  let threshold := (1 - epsilon s0)%Qc in
  let hs := effective s0 (values_of i (returned s0 cs)) in
  (forall m, 0 < m <= length hs -> total (firstn m hs) <> threshold) ->
  let n := halting_step threshold 0 hs in
  exists delta, (0 < delta)%Qc /\ forall cs', Forall call_wf cs' -> Forall2 (nudged i delta) cs cs' ->
    let s := run s0 cs in let s' := run s0 cs' in
    let dh := changes hs (effective s0 (values_of i (returned s0 cs'))) in
    halted s' i = halted s i /\ (iterations s').[i] = (iterations s).[i] /\
    (forall p p', (probabilities s).[i] = Some p -> (probabilities s').[i] = Some p' ->
       p' = p + dot dh (probability_slopes n (length hs)))%Qc /\
    (forall r r', (residuals s).[i] = Some r -> (residuals s').[i] = Some r' -> r' = r + dot dh (residual_slopes n))%Qc /\
    (forall k t t' d l a a' dl R j av av' dv,
       dget k (accumulators s) = Some t -> dget k (accumulators s') = Some t' -> dget k (defaults s0) = Some d ->
       nth_error (leaves t) l = Some a -> nth_error (leaves t') l = Some a' -> nth_error (leaves d) l = Some dl ->
       a_shape a = batch_shape s0 ++ R -> a_shape a' = batch_shape s0 ++ R -> j / size R = i ->
       a.[j] = Some av -> a'.[j] = Some av' -> dl.[j] = Some dv ->
       exists us : list Qc,
         map (fun e => update_at k l j (snd e)) (past (element_log s0 i cs)) = map Some us /\
         av' = (av + dot dh (value_slopes n us))%Qc).
Proof.
  intros He He1 Hd W F Hc NR Hi threshold hs T n.
  destruct (halting_step_stable threshold hs 0) as (e & E0 & St).
  { intros m Hm. rewrite Qcplus_0_l. now apply T. }
  destruct (close_scaled (depression_constant s0) e Hd E0) as (delta & D0 & Cl).
  exists delta. split; [exact D0|]. intros cs' Hc' Nd s s' dh. destruct (nudged_no_reset _ _ _ _ Nd) as [_ NR'].
  set (hs' := effective s0 (values_of i (returned s0 cs'))) in *.
  pose proof (returned_together _ (nudged_like i delta) cs cs' s0 s0 (like_same s0) Nd) as Nr.
  assert (V : Forall2 (close delta) (values_of i (returned s0 cs)) (values_of i (returned s0 cs'))).
  { apply (nudged_values i delta); auto using returned_all. }
  assert (C : Forall2 (close e) hs hs').
  { unfold hs, hs', effective. clear -V Cl D0. induction V; cbn [map]; constructor; auto. apply Cl. now apply close_clamp. }
  assert (L : length hs = length hs') by (clear -C; induction C; cbn; auto).
  assert (E : halting_step threshold 0 hs' = halting_step threshold 0 hs).
  { apply St; [|exact C]. split; revert E0; qc. }
  destruct (C05_controller_computes_graves_act s0 cs He He1 Hd W F Hc i) as (P1 & R1 & I1 & H1 & A1).
  destruct (C05_controller_computes_graves_act s0 cs' He He1 Hd W F Hc' i) as (P2 & R2 & I2 & H2 & A2).
  destruct (C05_every_element_is_covered s0 cs W F Hc i Hi) as (_ & _ & (n1 & N1) & (b1 & B1)).
  destruct (C05_every_element_is_covered s0 cs' W F Hc' i Hi) as (_ & _ & (n2 & N2) & (b2 & B2)).
  rewrite (element_hs_values s0 i cs NR) in P1, R1, I1, H1, A1. rewrite (element_hs_values s0 i cs' NR') in P2, R2, I2, H2, A2.
  fold threshold hs in P1, R1, I1, H1, A1. fold threshold hs' in P2, R2, I2, H2, A2. fold s in P1, R1, I1, H1, A1, N1, B1. fold s' in P2, R2, I2, H2, A2, N2, B2.
  destruct (affine_halted threshold hs hs' L E) as [Ah Ai].
  split; [rewrite B1, B2; f_equal; rewrite (H1 _ B1), (H2 _ B2); exact Ah|].
  split; [rewrite N1, N2; f_equal; rewrite (I1 _ N1), (I2 _ N2), Ai; reflexivity|].
  split; [intros p p' X X'; rewrite (P1 _ X), (P2 _ X'); exact (affine_probability threshold hs hs' L E)|].
  split; [intros r r' X X'; rewrite (R1 _ X), (R2 _ X'); exact (affine_residual threshold hs hs' L E)|].
  intros k t t' d l a a' dl R j av av' dv G1 G2 G3 Q1 Q2 Q3 S1 S2 J X1 X2 X3.
  destruct (A1 k t d l a dl R j av dv G1 G3 Q1 Q3 S1 J X1 X3) as (us & U1 & ->).
  destruct (A2 k t' d l a' dl R j av' dv G2 G3 Q2 Q3 S2 J X2 X3) as (us' & U2 & ->).
  assert (Ls : map snd (past (element_log s0 i cs)) = map snd (past (element_log s0 i cs'))).
  { unfold element_log, log_of. apply (nudged_logs _ i delta); auto using returned_all. }
  assert (Eu : us = us').
  { rewrite <- (map_map snd (update_at k l j)) in U1, U2. rewrite Ls in U1. rewrite U1 in U2. clear -U2.
    revert us' U2. induction us; intros [|u' us']; cbn; try discriminate; auto. intros [= -> X]. f_equal. auto. }
  subst us'. exists us. split; [exact U1|]. rewrite (affine_weights threshold hs hs' L E us); [unfold dh, n; qring|].
  apply (f_equal (@length _)) in U1. rewrite !map_length in U1. rewrite log_snd_length, (element_hs_values s0 i cs NR) in U1. now rewrite <- U1.
Qed.
Print Assumptions C75_results_are_locally_affine.
(** The hypothesis is needed: a total that lies exactly on the threshold is not halted, and an increase of
    any size makes it halt, moving the residual from 0 to at least epsilon. *)
Definition tie_calls (v : Qc) : list (call QcNum) :=
  [CCache "x" (u_x 1 2 3 4); CIter (hp (q 1 2) (q 1 4)); CCache "x" (u_x 5 6 7 8); CIter (hp v (q 1 4))].
Theorem C75_jump_at_the_threshold (v : Qc) : (q 4 10 < v)%Qc ->
  (residuals (run ctl1 (tie_calls (q 4 10)))).[0] = Some 0%Qc /\ halted (run ctl1 (tie_calls (q 4 10))) 0 = Some false /\
  (residuals (run ctl1 (tie_calls v))).[0] = Some (q 1 2) /\ halted (run ctl1 (tie_calls v)) 0 = Some true.
Proof.
  intros Hv. destruct ctl1_ok as [W F].
  assert (C : forall w, Forall call_wf (tie_calls w)) by (intros w; repeat constructor).
  assert (NR : forall w, Forall (fun c => c <> CReset) (tie_calls w)) by (intros w; repeat constructor; discriminate).
  assert (R : forall w, values_of 0 (returned ctl1 (tie_calls w)) = [q 1 2; w]) by (intros w; lazy; reflexivity).
  assert (G : forall w, element_hs ctl1 0 (tie_calls w) = [q 1 2; clamp w]).
  { intros w. rewrite (element_hs_values ctl1 0 _ (NR w)), R. unfold effective. cbn [map].
    replace (depression_constant ctl1) with 1%Qc by (vm_compute; reflexivity). rewrite !Qcmult_1_l. reflexivity. }
  assert (K : forall w, (residuals (run ctl1 (tie_calls w))).[0] = Some (act_residual (1 - epsilon ctl1) [q 1 2; clamp w]) /\
    halted (run ctl1 (tie_calls w)) 0 = Some (act_halted (1 - epsilon ctl1) [q 1 2; clamp w])).
  { intros w. destruct (C05_controller_computes_graves_act ctl1 (tie_calls w)) with (i := 0) as (_ & Rw & _ & Hw & _); auto; try reflexivity; try discriminate.
    destruct (C05_every_element_is_covered ctl1 (tie_calls w) W F (C w) 0) as (_ & (r & Er) & _ & (b & Eb)); [vm_compute; auto|].
    rewrite Er, Eb, (Rw _ Er), (Hw _ Eb), G. auto. }
  destruct (K (q 4 10)) as [K1 K2]. destruct (K v) as [K3 K4]. rewrite K1, K2, K3, K4. clear K1 K2 K3 K4 K G R.
  assert (Cv : (q 4 10 < clamp v)%Qc).
  { unfold clamp. destruct (Qclt_le_dec v 0) as [X|X]; [exfalso; revert X Hv; unfold q; qc|]. destruct (Qclt_le_dec 1 v); [reflexivity|exact Hv]. }
  assert (St : halting_step (1 - epsilon ctl1) 0 [q 1 2; clamp v] = Some 1).
  { cbn [halting_step]. destruct (Qclt_le_dec (1 - epsilon ctl1) (0 + q 1 2)) as [X|_]; [vm_compute in X; discriminate|].
    replace (1 - epsilon ctl1)%Qc with (q 9 10) by (vm_compute; reflexivity).
    destruct (Qclt_le_dec (q 9 10) (0 + q 1 2 + clamp v)) as [_|X]; [reflexivity|exfalso]. revert X Cv. unfold q. qc. }
  unfold act_residual, act_halted. rewrite St. repeat split.
Qed.
Print Assumptions C75_jump_at_the_threshold.
(** Element 0 halts in the third step; its residual falls with the first two probabilities and does not
    depend on the third; its first entry of "x" follows the differences to the third update. *)
Definition slope_calls : list (call QcNum) :=
  [CCache "x" (u_x 1 2 3 4); CIter (hp (q 1 2) (q 1 4)); CCache "x" (u_x 5 6 7 8); CIter (hp (q 1 3) (q 1 4));
   CCache "x" (u_x 2 3 4 5); CIter (hp (q 1 3) (q 1 4))].
Definition slope_calls' : list (call QcNum) :=
  [CCache "x" (u_x 1 2 3 4); CIter (hp (q 49 100) (q 1 1)); CCache "x" (u_x 5 6 7 8); CIter (hp (q 34 100) (q 1 4));
   CCache "x" (u_x 2 3 4 5); CIter (hp (q 1 3) (q 1 7))].
Example C75_case : let hs := effective ctl1 (values_of 0 (returned ctl1 slope_calls)) in
  Forall call_wf slope_calls /\ Forall (fun c => c <> CReset) slope_calls /\ 0 < size (batch_shape ctl1) /\
  (forall m, 0 < m <= length hs -> total (firstn m hs) <> (1 - epsilon ctl1)%Qc) /\
  halting_step (1 - epsilon ctl1) 0 hs = Some 2 /\ Forall2 (nudged 0 (q 1 50)) slope_calls slope_calls' /\
  map this (residual_slopes (Some 2)) = [-1; -1]%Q /\ map this (value_slopes (Some 2) [q 1 1; q 5 1; q 2 1]) = [-1; 3]%Q /\
  option_map this ((residuals (run ctl1 slope_calls)).[0]) = Some (1 # 6)%Q /\
  option_map this ((residuals (run ctl1 slope_calls')).[0]) = Some (17 # 100)%Q.
Proof.
  cbn zeta. split; [repeat constructor|]. split; [repeat constructor; discriminate|]. split; [vm_compute; lia|].
  split. { assert (E : effective ctl1 (values_of 0 (returned ctl1 slope_calls)) = [q 1 2; q 1 3; q 1 3]) by (vm_compute; reflexivity).
    rewrite E. intros [|[|[|[|m]]]] [A B]; cbn in A, B; try lia; intros X; vm_compute in X; discriminate. }
  split; [vm_compute; reflexivity|]. split; [|repeat split; vm_compute; reflexivity].
  assert (K : forall a b c d, close (q 1 50) a c -> nudged 0 (q 1 50) (CIter (hp a b)) (CIter (hp c d))).
  { intros a b c d H. split; [split; reflexivity|]. intros v v'. cbn. intros X Y. apply Some_inj in X. apply Some_inj in Y. now subst. }
  unfold slope_calls, slope_calls'. repeat (apply Forall2_cons; [first [split; reflexivity|apply K; split; reflexivity]|]). constructor.
Qed.

(** ** C76 *)
(** In any arithmetic, from any controllers, after any history of calls: what the updates and the
    accumulators contain has no influence on probabilities, residuals and iteration counts. *)
Theorem C76_updates_do_not_influence_halting {N} (s s' : state N) cs cs' :
  like s s' -> epsilon s = epsilon s' -> depression_constant s = depression_constant s' ->
  probabilities s = probabilities s' -> residuals s = residuals s' -> iterations s = iterations s' ->
  Forall2 same_halting cs cs' ->
  let r := run s cs in let r' := run s' cs' in
  probabilities r = probabilities r' /\ residuals r = residuals r' /\ iterations r = iterations r' /\
  halted_batches r = halted_batches r' /\ is_completely_halted r = is_completely_halted r' /\ is_any_halted r = is_any_halted r'.
Proof.
  intros L E D P R I F r r'. destruct (core_run s s' cs cs' L (mkCore _ _ _ E D P R I) F) as [_ [E' D' P' R' I']].
  fold r r' in E', D', P', R', I'. assert (H : halted_batches r = halted_batches r').
  { unfold halted_batches, halt_threshold. now rewrite E', P'. }
  unfold is_completely_halted, is_any_halted. rewrite H. repeat split; assumption.
Qed.
Print Assumptions C76_updates_do_not_influence_halting.
(** In exact arithmetic the accumulated sums are linear in the updates: with the same halting values, and
    updates that are a mixture of those of two other histories, every accumulator entry moves away from its
    default by the same mixture. *)
Theorem C76_outputs_are_linear_in_the_updates (s0 : st) alpha beta cs1 cs2 cs :
  (0 < epsilon s0)%Qc -> (epsilon s0 <= 1)%Qc -> (0 <= depression_constant s0)%Qc ->
  wf s0 -> fresh s0 -> Forall call_wf cs1 -> Forall call_wf cs2 -> Forall call_wf cs ->
  mixture alpha beta cs1 cs2 cs ->
  forall k t1 t2 t d l a1 a2 a dl R j (x1 x2 x dv : Qc),
    dget k (accumulators (run s0 cs1)) = Some t1 -> dget k (accumulators (run s0 cs2)) = Some t2 ->
    dget k (accumulators (run s0 cs)) = Some t -> dget k (defaults s0) = Some d ->
    nth_error (leaves t1) l = Some a1 -> nth_error (leaves t2) l = Some a2 -> nth_error (leaves t) l = Some a -> nth_error (leaves d) l = Some dl ->
    a_shape a1 = batch_shape s0 ++ R -> a_shape a2 = batch_shape s0 ++ R -> a_shape a = batch_shape s0 ++ R ->
    a1.[j] = Some x1 -> a2.[j] = Some x2 -> a.[j] = Some x -> dl.[j] = Some dv ->
    (x - dv = alpha * (x1 - dv) + beta * (x2 - dv))%Qc.
Proof.
  intros He He1 Hd W F C1 C2 C M k t1 t2 t d l a1 a2 a dl R j x1 x2 x dv G1 G2 G G0 Q1 Q2 Q Q0 S1 S2 S X1 X2 X X0.
  set (i := j / size R).
  destruct (C05_controller_computes_graves_act s0 cs1 He He1 Hd W F C1 i) as (_ & _ & _ & _ & A1).
  destruct (C05_controller_computes_graves_act s0 cs2 He He1 Hd W F C2 i) as (_ & _ & _ & _ & A2).
  destruct (C05_controller_computes_graves_act s0 cs He He1 Hd W F C i) as (_ & _ & _ & _ & A).
  destruct (A1 k t1 d l a1 dl R j x1 dv G1 G0 Q1 Q0 S1 eq_refl X1 X0) as (us1 & U1 & E1).
  destruct (A2 k t2 d l a2 dl R j x2 dv G2 G0 Q2 Q0 S2 eq_refl X2 X0) as (us2 & U2 & E2).
  destruct (A k t d l a dl R j x dv G G0 Q Q0 S eq_refl X X0) as (us & U & E).
  pose proof (returned_mixture alpha beta cs1 cs2 cs s0 s0 s0 (like_same s0) (like_same s0) M) as Mr.
  assert (L : all3 (mixed_event alpha beta) (past (element_log s0 i cs1)) (past (element_log s0 i cs2)) (past (element_log s0 i cs))).
  { unfold element_log, log_of. apply mixture_logs; [exact Mr| |exact I]. intros k' l' j' y1 y2 y. discriminate. }
  destruct (mixed_fst _ _ _ _ _ L) as [F2 F3].
  assert (H2 : element_hs s0 i cs2 = element_hs s0 i cs1) by (unfold element_hs; now rewrite F2).
  assert (H3 : element_hs s0 i cs = element_hs s0 i cs1) by (unfold element_hs; now rewrite F3).
  rewrite H2 in E2. rewrite H3 in E. rewrite (mixed_lists alpha beta k l j _ _ _ us1 us2 us L U1 U2 U) in E.
  rewrite E, E1, E2. qring.
Qed.
Print Assumptions C76_outputs_are_linear_in_the_updates.
(** updates u, v and 2 u - 3 v *)
Definition mix_a : list (call QcNum) := [CCache "x" (u_x 1 2 3 4); CIter (hp (q 1 2) (q 1 4)); CReset; CCache "x" (u_x 5 6 7 8); CIter (hp (q 3 4) (q 1 4))].
Definition mix_b : list (call QcNum) := [CCache "x" (u_x 0 1 0 1); CIter (hp (q 1 2) (q 1 4)); CReset; CCache "x" (u_x 9 0 (-1) 2); CIter (hp (q 3 4) (q 1 4))].
Definition mix_c : list (call QcNum) := [CCache "x" (u_x 2 1 6 5); CIter (hp (q 1 2) (q 1 4)); CReset; CCache "x" (u_x (-17) 12 17 10); CIter (hp (q 3 4) (q 1 4))].
Example C76_case : like ctl1 ctl1 /\ Forall2 same_halting mix_a mix_b /\ mixture (q 2 1) (q (-3) 1) mix_a mix_b mix_c /\
  Forall call_wf mix_a /\ Forall call_wf mix_b /\ Forall call_wf mix_c /\
  length (returned ctl1 mix_a) = 5 /\ map this (a_data (probabilities (run ctl1 mix_c))) = [1; 1 # 2]%Q.
Proof.
  assert (L : forall a b c d a' b' c' d', like_tree (u_x a b c d) (u_x a' b' c' d')) by (intros; split; [reflexivity|]; repeat constructor).
  assert (M : forall a1 b1 c1 d1 a2 b2 c2 d2 a b c d, (q a 1 = q 2 1 * q a1 1 + q (-3) 1 * q a2 1)%Qc -> (q b 1 = q 2 1 * q b1 1 + q (-3) 1 * q b2 1)%Qc ->
    (q c 1 = q 2 1 * q c1 1 + q (-3) 1 * q c2 1)%Qc -> (q d 1 = q 2 1 * q d1 1 + q (-3) 1 * q d2 1)%Qc ->
    mixed (q 2 1) (q (-3) 1) (CCache "x" (u_x a1 b1 c1 d1)) (CCache "x" (u_x a2 b2 c2 d2)) (CCache "x" (u_x a b c d))).
  { intros. split; [split; [reflexivity|apply L]|]. split; [split; [reflexivity|apply L]|].
    intros [|[|l]]; cbn; try discriminate. intros x1 x2 x [= <-] [= <-] [= <-]. intros [|[|[|[|[|j]]]]]; cbn; try discriminate; intros ? ? ? [= <-] [= <-] [= <-]; assumption. }
  split; [apply like_same|]. split; [repeat constructor; apply L|].
  split; [|split; [repeat constructor|split; [repeat constructor|split; [repeat constructor|split; vm_compute; reflexivity]]]].
  unfold mixture, mix_a, mix_b, mix_c. cbn [all3]. split; [apply M; vm_compute; reflexivity|].
  split; [repeat split|]. split; [repeat split|]. split; [apply M; vm_compute; reflexivity|]. split; [repeat split|exact I].
Qed.
