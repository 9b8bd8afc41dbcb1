(** * Small changes of halting probabilities, and mixtures of updates. *)
From Coq Require Import QArith Qcanon Lia.
From Verif Require Import Base PyTree Tensor Num States Controller Wf Spec History ElementSpec TraceSpec SlopeSpec.
From Verif Require Import BaseFacts PyTreeFacts QcFacts SpecFacts TraceFacts HistoryFacts.
Close Scope Q_scope. Open Scope Qc_scope.

Lemma Qc_half (g : Qc) : 0 < g -> exists h : Qc, 0 < h /\ h + h = g.
Proof.
  intros H. exists (g * Q2Qc (1 # 2)). assert (E : g * Q2Qc (1 # 2) + g * Q2Qc (1 # 2) = g).
  { rewrite <- Qcmult_plus_distr_r. replace (Q2Qc (1 # 2) + Q2Qc (1 # 2)) with 1 by (apply Qc_is_canon; reflexivity). ring. }
  split; [|exact E]. revert E H. generalize (g * Q2Qc (1 # 2)). qc.
Qed.
Lemma close_weaker d d' v w : d <= d' -> close d v w -> close d' v w.
Proof. unfold close. intros H [A B]. split; revert H A B; qc. Qed.
Lemma close_clamp d v w : 0 < d -> close d v w -> close d (clamp v) (clamp w).
Proof.
  unfold close, clamp. intros H [A B].
  destruct (Qclt_le_dec v 0), (Qclt_le_dec w 0), (Qclt_le_dec 1 v), (Qclt_le_dec 1 w);
    split; revert H A B; try revert q; try revert q0; try revert q1; try revert q2; qc.
Qed.
Lemma close_scaled (d delta : Qc) : 0 <= d -> 0 < delta ->
  exists e, 0 < e /\ forall v w, close e v w -> close delta (d * v) (d * w).
Proof.
  intros D H. assert (P : 0 < d + 1) by (revert D; qc). assert (Z : d + 1 <> 0) by (intros X; rewrite X in P; discriminate).
  exists (delta * / (d + 1)). assert (E : delta * / (d + 1) * (d + 1) = delta) by (field; exact Z).
  set (e := delta * / (d + 1)) in *. clearbody e. assert (Q : 0 < e).
  { destruct (Qclt_le_dec 0 e) as [X|X]; [exact X|exfalso]. revert E H P X. qcn. }
  split; [exact Q|]. intros v w [A B]. unfold close.
  assert (A' : 0 <= d * (w - (v - e))) by (apply Qcmult_nonneg; [exact D|revert A; qc]).
  assert (B' : 0 <= d * ((v + e) - w)) by (apply Qcmult_nonneg; [exact D|revert B; qc]).
  assert (X1 : d * (w - (v - e)) = d * w - d * v + d * e) by ring. rewrite X1 in A'.
  assert (X2 : d * ((v + e) - w) = d * v + d * e - d * w) by ring. rewrite X2 in B'.
  assert (X3 : e * (d + 1) = d * e + e) by ring. rewrite X3 in E.
  revert A' B' E Q. generalize (d * w), (d * v), (d * e). split; revert A' B' E Q; qc.
Qed.

(** Away from the threshold the halting step does not move. *)
Lemma halting_step_stable thr hs : forall sofar,
  (forall m, (0 < m <= length hs)%nat -> sofar + total (firstn m hs) <> thr) ->
  exists delta, 0 < delta /\ forall sofar' hs', close delta sofar sofar' -> Forall2 (close delta) hs hs' ->
    halting_step thr sofar' hs' = halting_step thr sofar hs.
Proof.
  induction hs as [|h hs IH]; intros sofar T.
  { exists 1. split; [reflexivity|]. intros sofar' hs' _ F. inversion F. reflexivity. }
  destruct (Qclt_le_dec thr (sofar + h)) as [O|O].
  - destruct (Qc_half (sofar + h - thr)) as (e & E0 & E); [revert O; qc|]. exists e. split; [exact E0|].
    intros sofar' hs' [S1 S2] F. inversion F as [|? h' ? hs'' [H1 H2] F']; subst. cbn [halting_step].
    destruct (Qclt_le_dec thr (sofar + h)) as [_|Y]; [|exfalso; revert Y O; qc].
    destruct (Qclt_le_dec thr (sofar' + h')) as [_|Y]; [reflexivity|exfalso; revert Y S1 H1 E O; qc].
  - assert (O' : sofar + h < thr).
    { destruct (Qclt_le_dec (sofar + h) thr) as [X|X]; [exact X|exfalso]. apply (T 1%nat); [cbn; lia|].
      cbn [firstn total]. apply Qcle_antisym; revert O X; qc. }
    destruct (IH (sofar + h)) as (d1 & D1 & St).
    { intros m Hm E. apply (T (S m)); [cbn; lia|]. cbn [firstn total]. rewrite <- E. ring. }
    destruct (Qc_half d1 D1) as (e1 & E1 & X1). destruct (Qc_half (thr - (sofar + h))) as (e2 & E2 & X2); [revert O'; qc|].
    exists (if Qclt_le_dec e1 e2 then e1 else e2).
    assert (M : 0 < (if Qclt_le_dec e1 e2 then e1 else e2) /\ (if Qclt_le_dec e1 e2 then e1 else e2) <= e1 /\ (if Qclt_le_dec e1 e2 then e1 else e2) <= e2).
    { destruct (Qclt_le_dec e1 e2) as [L|L]; (split; [assumption|]); split; revert L; qc. }
    destruct M as (M0 & M1 & M2). split; [exact M0|]. revert M0 M1 M2. generalize (if Qclt_le_dec e1 e2 then e1 else e2).
    intros d M0 M1 M2 sofar' hs' S F. inversion F as [|? h' ? hs'' H F' Z1 Z2]. subst hs'. clear F.
    destruct S as [S1 S2]. destruct H as [H1 H2]. cbn [halting_step].
    destruct (Qclt_le_dec thr (sofar + h)) as [Y|_]; [exfalso; revert Y O; qc|].
    destruct (Qclt_le_dec thr (sofar' + h')) as [Y|_]; [exfalso; revert Y S2 H2 M2 X2; qc|]. f_equal.
    apply St; [split; [revert S1 H1 M1 X1; qc|revert S2 H2 M1 X1; qc]|].
    assert (L : d <= d1) by (revert M1 X1 E1; qc). clear -F' L.
    induction F' as [|x y xs ys Hx F IH]; constructor; [now apply (close_weaker d)|assumption].
Qed.

(** ** With the same halting step everything is affine in the halting probabilities *)
Lemma changes_total hs : forall hs', length hs = length hs' -> total hs' = total hs + dot (changes hs hs') (repeat 1 (length hs)).
Proof. induction hs as [|h hs IH]; intros [|h' hs'] L; try discriminate; cbn; [ring|]. rewrite (IH hs') by (cbn in L; lia). ring. Qed.
Lemma changes_firstn hs : forall hs' n, length hs = length hs' -> (n <= length hs)%nat ->
  1 - total (firstn n hs') = 1 - total (firstn n hs) + dot (changes hs hs') (repeat (-(1)) n).
Proof.
  assert (G : forall hs' n, length hs = length hs' -> (n <= length hs)%nat ->
    total (firstn n hs) - total (firstn n hs') = dot (changes hs hs') (repeat (-(1)) n)).
  { induction hs as [|h hs IH]; intros [|h' hs'] [|n] L B; try discriminate; try (cbn in B; lia); cbn [firstn total repeat changes dot]; try ring.
    rewrite <- (IH hs' n) by (cbn in L, B; lia). ring. }
  intros hs' n L B. rewrite <- (G hs' n L B). ring.
Qed.
Lemma changes_dot hs : forall hs' us, length hs = length hs' -> dot hs' us = dot hs us + dot (changes hs hs') us.
Proof.
  induction hs as [|h hs IH]; intros [|h' hs'] [|u us] L; try discriminate; cbn; try ring. rewrite (IH hs' us) by (cbn in L; lia). ring.
Qed.
Lemma dot_nil_r ws : dot ws [] = 0.
Proof. destruct ws; reflexivity. Qed.
Lemma dot_zeros k us : dot (repeat 0 k) us = 0.
Proof. revert us. induction k; intros [|u us]; cbn; auto. rewrite IHk. ring. Qed.
Lemma changes_weights n : forall hs hs' us c c' k, length hs = length hs' -> (n < length hs)%nat -> length us = length hs ->
  dot (firstn n hs' ++ (c' - total (firstn n hs')) :: repeat 0 k) us =
  dot (firstn n hs ++ (c - total (firstn n hs)) :: repeat 0 k) us
  + dot (changes hs hs') (value_slopes (Some n) us) + (c' - c) * nth n us 0.
Proof.
  induction n as [|n IH]; intros [|h hs] [|h' hs'] [|u us] c c' k L B U; try discriminate; try (cbn in B; lia).
  - cbn. rewrite dot_zeros. ring.
  - cbn [firstn app total dot nth value_slopes map changes].
    replace (c' - (h' + total (firstn n hs'))) with ((c' - h') - total (firstn n hs')) by ring.
    replace (c - (h + total (firstn n hs))) with ((c - h) - total (firstn n hs)) by ring.
    rewrite (IH hs hs' us (c - h) (c' - h') k) by (cbn in L, B, U; lia). unfold value_slopes. ring.
Qed.
Lemma halting_step_bound thr hs : forall sofar n, halting_step thr sofar hs = Some n -> (n < length hs)%nat.
Proof.
  induction hs as [|h hs IH]; intros sofar n; [discriminate|]. cbn [halting_step length].
  destruct (Qclt_le_dec thr (sofar + h)); [intros [= <-]; lia|].
  destruct (halting_step thr (sofar + h) hs) eqn:E; [|discriminate]. cbn [option_map]. intros [= <-]. apply IH in E. lia.
Qed.
Section Affine.
  Context (thr : Qc) (hs hs' : list Qc) (L : length hs = length hs') (E : halting_step thr 0 hs' = halting_step thr 0 hs).
  Lemma affine_halted : act_halted thr hs' = act_halted thr hs /\ act_iterations thr hs' = act_iterations thr hs.
  Proof. unfold act_halted, act_iterations. rewrite E. split; [reflexivity|]. destruct (halting_step thr 0 hs); congruence. Qed.
  Lemma affine_residual : act_residual thr hs' = act_residual thr hs + dot (changes hs hs') (residual_slopes (halting_step thr 0 hs)).
  Proof.
    unfold act_residual. rewrite E. destruct (halting_step thr 0 hs) as [n|] eqn:H; cbn [residual_slopes].
    - apply changes_firstn; [exact L|]. apply halting_step_bound in H. lia.
    - rewrite dot_nil_r. ring.
  Qed.
  Lemma affine_weights us : length us = length hs ->
    dot (act_weights thr hs') us = dot (act_weights thr hs) us + dot (changes hs hs') (value_slopes (halting_step thr 0 hs) us).
  Proof.
    intros U. unfold act_weights. rewrite E. destruct (halting_step thr 0 hs) as [n|] eqn:H; cbn [value_slopes].
    - rewrite <- L. rewrite (changes_weights n hs hs' us 1 1) by (try apply halting_step_bound in H; auto). cbn [value_slopes]. ring.
    - now apply changes_dot.
  Qed.
  Lemma affine_probability :
    act_probability thr hs' = act_probability thr hs + dot (changes hs hs') (probability_slopes (halting_step thr 0 hs) (length hs)).
  Proof.
    unfold act_probability, act_weights. rewrite E. destruct (halting_step thr 0 hs) as [n|] eqn:H; cbn [probability_slopes].
    - rewrite dot_nil_r, !total_app. cbn [total]. rewrite !total_repeat0. ring.
    - now apply changes_total.
  Qed.
End Affine.

(** ** Histories *)
Lemma like_tree_same {N} (t : tree (array N)) : like_tree t t.
Proof. split; [reflexivity|]. induction (leaves t); constructor; auto. split; reflexivity. Qed.
Lemma like_same {N} (s : state N) : like s s.
Proof.
  assert (D : forall d : dict (tree (array N)), like_dict d d).
  { intros d. induction d; constructor; auto. split; [reflexivity|apply like_tree_same]. }
  constructor; auto; split; reflexivity.
Qed.
(** Like calls return together. *)
Lemma returned_together {N} (R : call N -> call N -> Prop) : (forall c c', R c c' -> like_call c c') ->
  forall cs cs' s s', like s s' -> Forall2 R cs cs' -> Forall2 R (returned s cs) (returned s' cs').
Proof.
  intros HR cs cs' s s' H C. revert s s' H. induction C as [|c c' cs cs' Hc C IH]; intros s s' H; [constructor|].
  pose proof (rr_call _ _ _ _ H (HR _ _ Hc)) as Q. cbn [returned].
  destruct (apply_call s c) as [t|e], (apply_call s' c') as [t'|e']; cbn in Q; try contradiction; [constructor; auto|auto].
Qed.
Lemma log_values {N} restarts i cs : Forall (fun c : call N => c <> CReset) cs -> forall g,
  map fst (past (fold_left (log_step restarts i) cs g)) = map fst (past g) ++ values_of i cs.
Proof.
  induction 1 as [|c cs Hc F IH]; intros g; [cbn; now rewrite app_nil_r|]. cbn [fold_left]. rewrite IH.
  unfold values_of. cbn [flat_map]. fold (values_of i cs). destruct c as [name item|h|]; cbn [log_step value_of app past]; [reflexivity| |congruence].
  destruct (nth_error (a_data h) i) as [v|]; cbn [past app]; [|reflexivity]. now rewrite map_app, <- app_assoc.
Qed.
Lemma like_nth {N} (h h' : array N) i : awf h -> awf h' -> like_array h h' ->
  match nth_error (a_data h) i, nth_error (a_data h') i with Some _, Some _ => True | None, None => True | _, _ => False end.
Proof.
  intros A A' [S _]. unfold awf, twf in *. fold (a_shape h) in A. fold (a_shape h') in A'. fold (a_data h) in A. fold (a_data h') in A'.
  assert (Q : length (a_data h) = length (a_data h')) by congruence.
  destruct (nth_error (a_data h) i) eqn:E, (nth_error (a_data h') i) eqn:E'; auto.
  - assert (X : nth_error (a_data h) i <> None) by congruence. apply nth_error_Some in X. apply nth_error_None in E'. lia.
  - assert (X : nth_error (a_data h') i <> None) by congruence. apply nth_error_Some in X. apply nth_error_None in E. lia.
Qed.
Lemma nudged_like i d c c' : nudged i d c c' -> like_call c c'.
Proof.
  destruct c, c'; cbn; try contradiction; [|intuition]. intros [-> ->]. split; [reflexivity|apply like_tree_same].
Qed.
Lemma nudged_values i d cs cs' : Forall call_wf cs -> Forall call_wf cs' -> Forall2 (nudged i d) cs cs' ->
  Forall2 (close d) (values_of i cs) (values_of i cs').
Proof.
  intros W W' F. induction F as [|c c' cs cs' Hc F IH]; [constructor|]. inversion W; subst. inversion W'; subst.
  unfold values_of. cbn [flat_map]. apply Forall2_app; [|now apply IH].
  destruct c as [n t|h|], c' as [n' t'|h'|]; cbn in Hc; try contradiction; cbn [value_of]; [constructor|].
  destruct Hc as [Lk Cl]. cbn [call_wf] in *. pose proof (like_nth h h' i H1 H3 Lk) as Q.
  destruct (nth_error (a_data h) i) eqn:E, (nth_error (a_data h') i) eqn:E'; try contradiction; constructor; [now apply Cl|constructor].
Qed.
Lemma nudged_logs r i d cs cs' : Forall call_wf cs -> Forall call_wf cs' -> Forall2 (nudged i d) cs cs' ->
  forall g g' : log QcNum, pending g = pending g' -> map snd (past g) = map snd (past g') ->
  map snd (past (fold_left (log_step r i) cs g)) = map snd (past (fold_left (log_step r i) cs' g')).
Proof.
  intros W W' F. induction F as [|c c' cs cs' Hc F IH]; intros g g' P E; [exact E|]. inversion W; subst. inversion W'; subst.
  cbn [fold_left]. destruct c as [n t|h|], c' as [n' t'|h'|]; cbn in Hc; try contradiction.
  - destruct Hc as [-> ->]. apply IH; auto. cbn. now rewrite P.
  - destruct Hc as [Lk _]. cbn [call_wf] in *. pose proof (like_nth h h' i H1 H3 Lk) as Q. cbn [log_step].
    destruct (nth_error (a_data h) i), (nth_error (a_data h') i); try contradiction; (apply IH; auto); cbn [past pending].
    rewrite !map_app, E, P. reflexivity.
Qed.

(** ** Updates and halting *)
Record same_core {N} (s s' : state N) : Prop := mkCore {
  sc_eps : epsilon s = epsilon s'; sc_dep : depression_constant s = depression_constant s';
  sc_p : probabilities s = probabilities s'; sc_r : residuals s = residuals s'; sc_i : iterations s = iterations s' }.
Lemma core_process {N} (s s' : state N) h : same_core s s' -> process_probabilities s h = process_probabilities s' h.
Proof.
  intros [E D P R I]. unfold process_probabilities, halted_batches, halt_threshold. now rewrite E, D, P, R.
Qed.
Lemma core_call {N} (s s' t t' : state N) c c' : same_core s s' -> same_halting c c' ->
  apply_call s c = Ok t -> apply_call s' c' = Ok t' -> same_core t t'.
Proof.
  intros H C A A'. pose proof H as [E D P R I].
  destruct c as [n u|h|], c' as [n' u'|h'|]; cbn in C; try contradiction; cbn [apply_call] in A, A'.
  - unfold cache_update in *. destruct (dget n (updates s)); [|discriminate]. destruct (negb (is_none t0)); [discriminate|].
    destruct (dget n' (updates s')); [|discriminate]. destruct (negb (is_none t1)); [discriminate|].
    cbn in A, A'. injection A as <-. injection A' as <-. constructor; cbn; auto.
  - subst h'. unfold iterate_act in *. apply bind_ok in A as (? & _ & A). apply bind_ok in A' as (? & _ & A').
    apply bind_ok in A as ([[h1 r1] p1] & Q & A). apply bind_ok in A' as ([[h2 r2] p2] & Q' & A').
    rewrite (core_process s s' _ H) in Q. rewrite Q in Q'. injection Q' as <- <- <-.
    apply bind_ok in A as ([? ?] & _ & A). apply bind_ok in A' as ([? ?] & _ & A').
    apply bind_ok in A as (i1 & I1 & A). apply bind_ok in A' as (i2 & I2 & A').
    unfold halted_batches, halt_threshold in I1, I2. rewrite E, P, I in I1. rewrite I1 in I2. injection I2 as <-.
    cbn in A, A'. injection A as <-. injection A' as <-. constructor; cbn; auto.
  - unfold reset_batches in *. apply bind_ok in A as (? & _ & A). apply bind_ok in A' as (? & _ & A').
    unfold halted_batches, halt_threshold in A, A'. rewrite E, P, I, R in A.
    apply bind_ok in A as (i1 & I1 & A). apply bind_ok in A' as (i2 & I2 & A'). rewrite I1 in I2. injection I2 as <-.
    apply bind_ok in A as (p1 & P1 & A). apply bind_ok in A' as (p2 & P2 & A'). rewrite P1 in P2. injection P2 as <-.
    apply bind_ok in A as (r1 & R1 & A). apply bind_ok in A' as (r2 & R2 & A'). rewrite R1 in R2. injection R2 as <-.
    apply bind_ok in A as (? & _ & A). apply bind_ok in A' as (? & _ & A').
    cbn in A, A'. injection A as <-. injection A' as <-. constructor; cbn; auto.
Qed.
Lemma same_halting_like {N} (c c' : call N) : same_halting c c' -> like_call c c'.
Proof. destruct c, c'; cbn; try contradiction; auto. intros ->. split; reflexivity. Qed.
Lemma core_run {N} (s s' : state N) cs cs' : like s s' -> same_core s s' -> Forall2 same_halting cs cs' ->
  like (run s cs) (run s' cs') /\ same_core (run s cs) (run s' cs').
Proof.
  intros L H F. revert s s' L H. induction F as [|c c' cs cs' Hc F IH]; intros s s' L H; [split; assumption|].
  pose proof (rr_call _ _ _ _ L (same_halting_like _ _ Hc)) as Q. cbn [run fold_left]. unfold after.
  destruct (apply_call s c) as [t|e] eqn:A, (apply_call s' c') as [t'|e'] eqn:A'; cbn in Q; try contradiction.
  - apply IH; [exact Q|]. exact (core_call _ _ _ _ _ _ H Hc A A').
  - now apply IH.
Qed.

(** ** Mixtures *)
Lemma like_tree_trans {N} (a b c : tree (array N)) : like_tree a b -> like_tree a c -> like_tree b c.
Proof.
  intros [S F] [S' F']. split; [congruence|]. revert F'. generalize (leaves c). induction F as [|x y xs ys H F IH]; intros zs G; inversion G; subst; constructor; auto.
  destruct H, H2. split; congruence.
Qed.
Lemma same_halting_other {N} (a b c : call N) : same_halting a b -> same_halting a c -> same_halting b c.
Proof.
  destruct a, b, c; cbn; try contradiction; auto; [|congruence].
  intros [<- A] [<- B]. split; [reflexivity|]. exact (like_tree_trans _ _ _ A B).
Qed.
Lemma returned_mixture al be cs1 : forall cs2 cs s1 s2 s, like s1 s2 -> like s1 s -> mixture al be cs1 cs2 cs ->
  mixture al be (returned s1 cs1) (returned s2 cs2) (returned s cs).
Proof.
  induction cs1 as [|c1 cs1 IH]; intros [|c2 cs2] [|c cs] s1 s2 s L L' M; cbn in M; try contradiction; [exact I|].
  destruct M as [H M]. pose proof H as (H2 & H3 & _).
  pose proof (rr_call _ _ _ _ L (same_halting_like _ _ H2)) as Q. pose proof (rr_call _ _ _ _ L' (same_halting_like _ _ H3)) as Q'.
  cbn [returned]. destruct (apply_call s1 c1), (apply_call s2 c2), (apply_call s c); cbn in Q, Q'; try contradiction.
  - split; [exact H|]. now apply IH.
  - now apply IH.
Qed.
Section Mix.
  Context (al be : Qc).
  Definition mixed_updates (d1 d2 d : dict (tree (array QcNum))) : Prop :=
    forall k l j x1 x2 x, update_at k l j d1 = Some x1 -> update_at k l j d2 = Some x2 -> update_at k l j d = Some x ->
      x = al * x1 + be * x2.
  Definition mixed_event (e1 e2 e : val QcNum * dict (tree (array QcNum))) : Prop :=
    fst e1 = fst e2 /\ fst e1 = fst e /\ mixed_updates (snd e1) (snd e2) (snd e).
  Lemma all3_app {A} (R : A -> A -> A -> Prop) a1 : forall a2 a b1 b2 b, all3 R a1 a2 a -> all3 R b1 b2 b -> all3 R (a1 ++ b1) (a2 ++ b2) (a ++ b).
  Proof. induction a1 as [|x1 a1 IH]; intros [|x2 a2] [|x a] b1 b2 b H G; cbn in *; try contradiction; auto. destruct H. split; auto. Qed.
  Lemma mixed_fst l1 : forall l2 l, all3 mixed_event l1 l2 l -> map fst l1 = map fst l2 /\ map fst l1 = map fst l.
  Proof.
    induction l1 as [|x1 l1 IH]; intros [|x2 l2] [|x l] H; cbn in *; try contradiction; auto.
    destruct H as [(A & B & _) H]. destruct (IH _ _ H) as [C D]. split; f_equal; assumption.
  Qed.
  Lemma mixture_logs r i cs1 : forall cs2 cs (g1 g2 g : log QcNum), mixture al be cs1 cs2 cs ->
    mixed_updates (pending g1) (pending g2) (pending g) -> all3 mixed_event (past g1) (past g2) (past g) ->
    all3 mixed_event (past (fold_left (log_step r i) cs1 g1)) (past (fold_left (log_step r i) cs2 g2)) (past (fold_left (log_step r i) cs g)).
  Proof.
    induction cs1 as [|c1 cs1 IH]; intros [|c2 cs2] [|c cs] g1 g2 g M P A; cbn in M; try contradiction; [exact A|].
    destruct M as [(H2 & H3 & H) M]. cbn [fold_left]. apply (IH _ _ _ _ _ M).
    - destruct c1 as [n1 t1|h1|], c2 as [n2 t2|h2|]; cbn in H2; try contradiction; destruct c as [n t|h|]; cbn in H3; try contradiction.
      + destruct H2 as [<- _]. destruct H3 as [<- _]. cbn [log_step pending]. intros k l j x1 x2 x. unfold update_at. cbn [dget].
        destruct (String.eqb k n1); [|apply P].
        destruct (nth_error (leaves t1) l) eqn:E1; [|discriminate]. destruct (nth_error (leaves t2) l) eqn:E2; [|discriminate].
        destruct (nth_error (leaves t) l) eqn:E3; [|discriminate]. exact (H _ _ _ _ E1 E2 E3 j x1 x2 x).
      + subst h2 h. cbn [log_step]. destruct (nth_error (a_data h1) i); intros k l j x1 x2 x; discriminate.
      + cbn [log_step]. destruct (mixed_fst _ _ _ A) as [<- <-]. destruct (r (map fst (past g1))); exact P.
    - destruct c1 as [n1 t1|h1|], c2 as [n2 t2|h2|]; cbn in H2; try contradiction; destruct c as [n t|h|]; cbn in H3; try contradiction.
      + exact A.
      + subst h2 h. cbn [log_step]. destruct (nth_error (a_data h1) i); [|exact A]. cbn [past].
        apply all3_app; [exact A|]. cbn. split; [|exact I]. split; [reflexivity|]. split; [reflexivity|]. exact P.
      + cbn [log_step]. destruct (mixed_fst _ _ _ A) as [<- <-]. destruct (r (map fst (past g1))); [exact I|exact A].
  Qed.
  Lemma mixed_lists k l j l1 : forall l2 l3 us1 us2 us, all3 mixed_event l1 l2 l3 ->
    map (fun e => update_at k l j (snd e)) l1 = map Some us1 -> map (fun e => update_at k l j (snd e)) l2 = map Some us2 ->
    map (fun e => update_at k l j (snd e)) l3 = map Some us ->
    forall ws, dot ws us = al * dot ws us1 + be * dot ws us2.
  Proof.
    induction l1 as [|e1 l1 IH]; intros [|e2 l2] [|e l3] [|u1 us1] [|u2 us2] [|u us] A M1 M2 M3 ws; cbn in A; try contradiction; try discriminate.
    - rewrite !dot_nil_r. ring.
    - destruct A as [(_ & _ & X) A]. cbn [map] in M1, M2, M3. injection M1 as U1 M1. injection M2 as U2 M2. injection M3 as U3 M3.
      destruct ws as [|w ws]; cbn [dot]; [ring|]. rewrite (IH _ _ _ _ _ A M1 M2 M3 ws). rewrite (X _ _ _ _ _ _ U1 U2 U3). ring.
  Qed.
End Mix.
