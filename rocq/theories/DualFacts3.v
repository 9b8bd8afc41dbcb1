(** * Proofs: the tangents in formulas; the loop of execute_act (for PropsDual.v) *)
From Coq Require Import QArith Qcanon Lia.
From Verif Require Import Base PyTree Tensor Num Utils States Controller Layers Wf Spec History ElementSpec ScalarSpec StateSpec LayerSpec TraceSpec Jit JitSpec SlopeSpec Dual DualSpec.
From Verif Require Import BaseFacts PyTreeFacts QcFacts ControllerFacts IterateFacts HistoryFacts AgreeFacts GravesFacts ExactFacts ScalarFacts ScriptFacts TraceFacts TraceFacts2 MoveFacts JitFacts
  LayerFacts LayerFacts3 LayerFacts4 LoopFacts IeeeLoopFacts2 DualFacts DualFacts2.
From Verif Require Import PropsController PropsScalar PropsLoop.
Close Scope Qc_scope. Close Scope Q_scope. Close Scope R_scope. Close Scope Z_scope. Open Scope string_scope. Open Scope list_scope. Open Scope nat_scope.

(** ** Formulas for the tangents, without resets *)
Section Formulas.
  Local Open Scope Qc_scope.
  Context (thr dep : dual) (T1 : fst thr < 1) (D0 : 0 <= fst dep).
  Definition offers_of (vs : list dual) : list Qc := map (fun v => fst dep * clamp (fst v)) vs.
  Notation hs' := (effective_tangents dep).
  Lemma offered_dual v : offered (N := DualNum) dep v = (fst dep * clamp (fst v), fst dep * (inside (fst v) * snd v) + snd dep * clamp (fst v)).
  Proof. unfold offered. fold (clip DualNum v). rewrite clip_dual. cbn. f_equal. ring. Qed.
  Lemma stats_run_cons S v (vs : list (option dual)) : stats_run (N := DualNum) thr dep S (Some v :: vs) = stats_run (N := DualNum) thr dep (stats_step (N := DualNum) thr dep S v) vs.
  Proof. reflexivity. Qed.
  Lemma over_constant vs : forall S : stats DualNum, cumulative S = ((1, 0) : dual) -> stats_run (N := DualNum) thr dep S (map Some vs) = S.
  Proof.
    induction vs as [|v vs IH]; intros S E; [reflexivity|]. cbn [map]. rewrite stats_run_cons.
    assert (O : is_over (N := DualNum) thr S = true) by (unfold is_over; rewrite E; cbn; apply Qcltb_lt; exact T1).
    assert (G : goes_over (N := DualNum) thr dep S v = true).
    { unfold goes_over. rewrite E, offered_dual. cbn [v_ltb v_add DualNum fst]. apply Qcltb_lt. rewrite <- clip_clamp. destruct (clip_unit (fst v)) as [U _].
      assert (Y : 0 <= fst dep * clip QcNum (fst v)) by (apply Qcmult_nonneg; assumption). revert Y T1. clear. generalize (fst dep * clip QcNum (fst v)). qc. }
    assert (X : stats_step (N := DualNum) thr dep S v = S).
    { unfold stats_step, used. rewrite O, G, E. destruct S as [c r n]. cbn in E |- *. rewrite E. f_equal; apply injective_projections; cbn; qring. }
    rewrite X. now apply IH.
  Qed.
  Lemma over_value vs : forall (S : stats DualNum) d a, cumulative S = ((1, 0) : dual) -> value_run (N := DualNum) thr dep d S a (map Some vs) = a.
  Proof.
    induction vs as [|[v u] vs IH]; intros S d a E; [reflexivity|]. cbn [map value_run].
    assert (O : is_over (N := DualNum) thr S = true) by (unfold is_over; rewrite E; cbn; apply Qcltb_lt; exact T1).
    unfold value_step. rewrite O. apply IH. pose proof (over_constant [v] S E) as X. change (stats_step (N := DualNum) thr dep S v = S) in X. now rewrite X.
  Qed.
  (** One step of a running element. *)
  Lemma running_step (S : stats DualNum) v : fst (cumulative S) <= fst thr ->
    let c := cumulative S : dual in
    let o := offered (N := DualNum) dep v : dual in
    is_over (N := DualNum) thr S = false /\
    (if Qclt_le_dec (fst thr) (fst c + fst o)
     then used (N := DualNum) thr dep S v = ((1 - fst c, - snd c) : dual) /\
          stats_step (N := DualNum) thr dep S v = mkStats (N := DualNum) ((1, 0) : dual) ((1 - fst c, - snd c) : dual) (v_add DualNum (steps S) (v_one DualNum))
     else used (N := DualNum) thr dep S v = o /\
          stats_step (N := DualNum) thr dep S v = mkStats (N := DualNum) (v_add DualNum c o) (remainder S) (v_add DualNum (steps S) (v_one DualNum))).
  Proof.
    intros L c o. assert (O : is_over (N := DualNum) thr S = false) by (unfold is_over; cbn; now apply Qcltb_ge). split; [exact O|].
    destruct (Qclt_le_dec (fst thr) (fst c + fst o)) as [A|A].
    - assert (G : goes_over (N := DualNum) thr dep S v = true) by (unfold goes_over; cbn [v_ltb v_add DualNum fst]; apply Qcltb_lt; rewrite Qcplus_comm; exact A).
      assert (U : used (N := DualNum) thr dep S v = ((1 - fst c, - snd c) : dual)).
      { unfold used. rewrite G. apply injective_projections; cbn; [reflexivity|]. unfold c. qring. }
      split; [exact U|]. unfold stats_step. rewrite U, O, G. cbn [andb negb]. f_equal; apply injective_projections; cbn; unfold c; qring.
    - assert (G : goes_over (N := DualNum) thr dep S v = false) by (unfold goes_over; cbn [v_ltb v_add DualNum fst]; apply Qcltb_ge; rewrite Qcplus_comm; exact A).
      assert (U : used (N := DualNum) thr dep S v = o) by (unfold used; now rewrite G).
      split; [exact U|]. unfold stats_step. rewrite U, O, G. reflexivity.
  Qed.
  Lemma tangents_run vs : forall S : stats DualNum, fst (cumulative S) <= fst thr ->
    let c := cumulative S : dual in
    let E := stats_run (N := DualNum) thr dep S (map Some vs) in
    snd (steps E) = snd (steps S) /\
    match halting_step (fst thr) (fst c) (offers_of vs) with
    | None => snd (cumulative E) = snd c + total (hs' vs) /\ snd (remainder E) = snd (remainder S)
    | Some n => snd (cumulative E) = 0 /\ snd (remainder E) = - snd c - total (firstn n (hs' vs))
    end.
  Proof.
    induction vs as [|v vs IH]; intros S L; cbn zeta.
    { cbn. split; [reflexivity|]. split; [ring|reflexivity]. }
    cbn [map offers_of halting_step effective_tangents]. rewrite stats_run_cons.
    destruct (running_step S v L) as [O H]. rewrite offered_dual in H. cbn [fst snd] in H.
    destruct (Qclt_le_dec (fst thr) (fst (cumulative S) + fst dep * clamp (fst v))) as [A|A]; destruct H as [_ ->].
    - rewrite over_constant by reflexivity. cbn [steps cumulative remainder v_add v_one DualNum fst snd firstn total]. repeat split; ring.
    - match goal with |- context [stats_run _ _ ?X _] => set (S1 := X) end. destruct (IH S1 A) as [I1 I2].
      change (snd (steps S1)) with (snd (steps S) + 0) in I1. change (fst (cumulative S1)) with (fst (cumulative S) + fst dep * clamp (fst v)) in I2.
      change (snd (cumulative S1)) with (snd (cumulative S) + (fst dep * (inside (fst v) * snd v) + snd dep * clamp (fst v))) in I2.
      change (remainder S1) with (remainder S) in I2. split; [rewrite I1; ring|].
      fold (offers_of vs). fold (hs' vs). destruct (halting_step (fst thr) (fst (cumulative S) + fst dep * clamp (fst v)) (offers_of vs)) as [n|]; cbn [option_map total firstn];
        destruct I2 as [-> ->]; split; qring.
  Qed.
  Notation firsts es := (map (fun e : dual * dual => fst e) es).
  Notation us es := (map (fun e : dual * dual => fst (snd e)) es).
  Notation us' es := (map (fun e : dual * dual => snd (snd e)) es).
  Lemma tangents_value d es : forall (S : stats DualNum) (a : dual), fst (cumulative S) <= fst thr ->
    let c := cumulative S : dual in
    snd (value_run (N := DualNum) thr dep d S a (map Some es)) = snd a +
    match halting_step (fst thr) (fst c) (offers_of (firsts es)) with
    | None => dot (offers_of (firsts es)) (us' es) + dot (hs' (firsts es)) (us es)
    | Some n => dot (firstn n (offers_of (firsts es))) (us' es) + dot (firstn n (hs' (firsts es))) (us es) +
        (1 - fst c - total (firstn n (offers_of (firsts es)))) * nth n (us' es) 0 + (- snd c - total (firstn n (hs' (firsts es)))) * nth n (us es) 0
    end.
  Proof.
    induction es as [|[v u] es IH]; intros S a L; cbn zeta; [cbn; ring|].
    cbn [map offers_of halting_step effective_tangents value_run fst snd].
    destruct (running_step S v L) as [O H]. rewrite offered_dual in H. cbn [fst snd] in H. unfold value_step. rewrite O.
    destruct (Qclt_le_dec (fst thr) (fst (cumulative S) + fst dep * clamp (fst v))) as [A|A]; destruct H as [-> ->].
    - rewrite over_value by reflexivity. cbn [v_add v_mul DualNum fst snd firstn total nth dot]. qring.
    - rewrite IH by exact A. cbn [cumulative v_add v_mul DualNum fst snd]. fold (offers_of (firsts es)). fold (hs' (firsts es)).
      destruct (halting_step (fst thr) (fst (cumulative S) + fst dep * clamp (fst v)) (offers_of (firsts es))) as [n|]; cbn [option_map total firstn nth dot]; qring.
  Qed.
  (** The same with the vocabulary of the undifferentiated formulas. *)
  Lemma halting_step_bound t hs : forall c n, halting_step t c hs = Some n -> (n < length hs)%nat.
  Proof.
    induction hs as [|h hs IH]; intros c n; cbn; [discriminate|]. destruct (Qclt_le_dec t (c + h)); [intros [= <-]; lia|].
    destruct (halting_step t (c + h) hs) as [m|] eqn:E; [|discriminate]. cbn. intros [= <-]. specialize (IH _ _ E). lia.
  Qed.
  Lemma dot_app_zero a : forall us m, dot (repeat 0 m) us = 0 /\ True -> dot (a ++ repeat 0 m) us = dot a us.
  Proof.
    induction a as [|x a IH]; intros us m _; cbn [app dot].
    - revert us. induction m as [|m IHm]; intros [|u us]; cbn; try reflexivity. rewrite IHm. ring.
    - destruct us as [|u us]; [reflexivity|]. rewrite IH; [reflexivity|]. split; [|exact I]. revert us. clear. induction m as [|m IHm]; intros [|u us]; cbn; try reflexivity. rewrite IHm. ring.
  Qed.
  Lemma dot_zeros m : forall us, dot (repeat 0 m) us = 0.
  Proof. induction m as [|m IHm]; intros [|u us]; cbn; try reflexivity. rewrite IHm. ring. Qed.
  Lemma dot_split hs w z : forall n us, (n < length hs)%nat -> length us = length hs ->
    dot (firstn n hs ++ w :: repeat 0 z) us = dot (firstn n hs) us + w * nth n us 0.
  Proof.
    induction hs as [|h hs IH]; intros n us Hn Hl; [cbn in Hn; lia|]. destruct us as [|u us]; [discriminate|]. destruct n as [|n]; cbn [firstn app dot nth].
    - rewrite dot_zeros. ring.
    - cbn in Hn, Hl. rewrite IH by lia. ring.
  Qed.
  Lemma dot_shift w : forall n l us, (n <= length us)%nat -> length l = length us ->
    dot l (map (fun u => u - w) (firstn n us)) = dot (firstn n l) us - w * total (firstn n l).
  Proof.
    induction n as [|n IH]; intros l us Hn Hl; [cbn; destruct l; cbn; qring|]. destruct us as [|u us]; [cbn in Hn; lia|]. destruct l as [|x l]; [discriminate|].
    cbn [firstn map dot total]. cbn in Hn, Hl. rewrite IH by lia. qring.
  Qed.
  Lemma tangent_value_formula d es a : fst ((0, 0) : dual) <= fst thr ->
    let hs := offers_of (firsts es) in
    snd (value_run (N := DualNum) thr dep d stats0 a (map Some es)) =
    snd a + dot (act_weights (fst thr) hs) (us' es) + dot (hs' (firsts es)) (value_slopes (halting_step (fst thr) 0 hs) (us es)).
  Proof.
    intros L hs. pose proof (tangents_value d es (stats0 (N := DualNum)) a L) as X. cbn zeta in X. etransitivity; [exact X|]. unfold act_weights, value_slopes. cbn [cumulative stats0 v_zero DualNum fst snd]. fold hs.
    destruct (halting_step (fst thr) 0 hs) as [n|] eqn:E; [|ring].
    assert (Hn : (n < length es)%nat) by (apply halting_step_bound in E; unfold hs, offers_of in E; now rewrite !map_length in E).
    rewrite dot_split by (unfold hs, offers_of; rewrite ?map_length; lia).
    rewrite dot_shift by (unfold effective_tangents; rewrite ?map_length; lia). qring.
  Qed.
End Formulas.
