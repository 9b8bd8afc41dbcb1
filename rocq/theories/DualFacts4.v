(** * Proofs: derivatives of whole executions (for PropsDual.v) *)
From Coq Require Import QArith Qcanon Lia ZArith.
From Verif Require Import Base PyTree Tensor Num Utils States Controller Layers Wf Spec History ElementSpec ScalarSpec StateSpec LayerSpec TraceSpec Jit JitSpec SlopeSpec Dual DualSpec.
From Verif Require Import BaseFacts TensorFacts PyTreeFacts QcFacts ControllerFacts IterateFacts HistoryFacts AgreeFacts GravesFacts ExactFacts ScalarFacts ScriptFacts TraceFacts TraceFacts2 MoveFacts JitFacts
  StateFacts LayerFacts LayerFacts2 LayerFacts3 LayerFacts4 LoopFacts IeeeLoopFacts2 DualFacts DualFacts2 DualFacts3.
From Verif Require Import PropsController PropsScalar PropsLoop.
Close Scope Qc_scope. Close Scope Q_scope. Close Scope R_scope. Close Scope Z_scope. Open Scope string_scope. Open Scope list_scope. Open Scope nat_scope.

Lemma near_forall (P : nat -> Qc -> Prop) n : (forall i, i < n -> near (P i)) -> near (fun t => forall i, i < n -> P i t).
Proof.
  induction n as [|n IH]; intros H; [apply near_all; intros t i Hi; lia|].
  apply (near_mp2 (fun t => forall i, i < n -> P i t) (P n)); [|apply IH; intros i Hi; apply H; lia|apply H; lia].
  intros t A B i Hi. destruct (Nat.eq_dec i n) as [->|Ne]; [exact B|apply A; lia].
Qed.
Lemma belongs_lt {N} (s : state N) k l j i x : wf s -> belongs s k l j i -> entry s k l j = Some x -> i < size (batch_shape s).
Proof.
  intros W (T & a & R & HT & Ha & HR & <-) E. unfold entry, update_at in E. rewrite HT, Ha in E.
  assert (F : leaf_fits (batch_shape s) a) by (pose proof (wf_acc _ W k T HT) as F; rewrite Forall_forall in F; apply F; now apply nth_error_In in Ha).
  destruct F as (Wa & _). assert (L : j < length (a_data a)) by (apply nth_error_Some; congruence). unfold awf, twf in Wa.
  assert (Z : j < size (batch_shape s) * size R) by (rewrite <- size_app, <- HR; unfold a_shape, a_data in *; lia).
  apply Nat.div_lt_upper_bound; nia.
Qed.
Lemma belongs_all {N} (s : state N) k l j x : wf s -> entry s k l j = Some x -> exists i, belongs s k l j i.
Proof.
  intros W E. unfold entry, update_at in E. destruct (dget k (accumulators s)) as [T|] eqn:HT; [|discriminate]. destruct (nth_error (leaves T) l) as [a|] eqn:Ha; [|discriminate].
  assert (F : leaf_fits (batch_shape s) a) by (pose proof (wf_acc _ W k T HT) as F; rewrite Forall_forall in F; apply F; now apply nth_error_In in Ha).
  destruct F as (_ & _ & R & HR). exists (j / size R), T, a, R. auto.
Qed.

Lemma frame_shape {N} (s s' : state N) : same_frame s s' -> batch_shape s' = batch_shape s.
Proof. intros F. pose proof (sf_p _ _ F) as E. now injection E. Qed.

Section History.
  Context (s : state CurveNum) (cs : list (call CurveNum)) (i : nat).
  Context (E0 : (0 < fst (snd (epsilon s : curve)))%Qc) (E1 : (fst (snd (epsilon s : curve)) < 1)%Qc) (D0 : (0 <= fst (snd (depression_constant s : curve)))%Qc).
  Context (W : wf s) (Fr : fresh s) (Ss : smooth_state s) (Cw : Forall call_wf cs) (Sc : Forall smooth_call cs).
  Context (Oc : off_corners s cs i) (Hi : i < size (batch_shape s)).
  Lemma history_differentiated : differentiated i (run (dual_state s) (map dual_call cs)) (fun t => run (state_at t s) (map (call_at t) cs)).
  Proof.
    split; [exact (family_halted s cs i E0 E1 D0 W Fr Ss Cw Sc Hi Oc)|].
    split; [intros x; apply (family_probability s cs i E0 E1 D0 W Fr Ss Cw Sc Hi Oc)|].
    split; [intros x; apply (family_residual s cs i E0 E1 D0 W Fr Ss Cw Sc Hi Oc)|].
    split; [intros x; apply (family_iterations s cs i E0 E1 D0 W Fr Ss Cw Sc Hi Oc)|].
    intros k l j (T & a & R & HT & Ha & HR & Hj) x Hx. unfold entry, update_at in Hx. rewrite HT, Ha in Hx.
    eapply (family_entry s cs i E0 E1 D0 W Fr Ss Cw Sc Hi Oc); eauto.
    rewrite HR. f_equal. exact (frame_shape _ _ (fo_frame _ _ _ (follows_D s cs W Fr Cw))).
  Qed.
End History.

Section Loop.
  Context (c0 : state CurveNum) (pc : parts CurveNum) (pq : Qc -> parts QcNum) (pd : parts DualNum)
    (lazyq : Qc -> state QcNum -> tree (array QcNum) -> res unit) (lazyd : state DualNum -> tree (array DualNum) -> res unit)
    (init : tree (array CurveNum)) (depq : Qc -> Qc) (depd : dual) (bound : Z) (check : bool).
  Context (E0 : (0 < fst (snd (epsilon c0 : curve)))%Qc) (E1 : (fst (snd (epsilon c0 : curve)) < 1)%Qc) (D0 : (0 <= fst (snd (depression_constant c0 : curve)))%Qc).
  Context (W : wf c0) (Fr : fresh c0) (Ne : accumulators c0 <> []) (Em : error_mode c0 = None) (Ss : smooth_state c0) (Si : smooth_tree init)
    (Df : differentiable pc pq pd).
  Context (Lq : forall t, lazyq t (state_at t c0) (tree_at t init) = Ok tt) (Ld : lazyd (dual_state c0) (dual_tree init) = Ok tt).
  Context (Fi : forall k, step_fits c0 (p_updates pc (state_after pc k init)) (p_halting pc (state_after pc k init)))
    (Au : abstract_user (p_next pc init) = abstract_user init).
  Context (Oc : forall i, i < size (batch_shape c0) -> off_corners c0 (calls_of pc (Z.to_nat (Z.max 0 bound)) init) i).

  Lemma states_smooth n : forall u, smooth_tree u -> smooth_tree (state_after pc n u).
  Proof. induction n as [|n IH]; intros u Su; [exact Su|]. apply IH. apply (Df u Su). Qed.
  Lemma states_at t n : forall u, smooth_tree u -> state_after (pq t) n (tree_at t u) = tree_at t (state_after pc n u).
  Proof.
    induction n as [|n IH]; intros u Su; [reflexivity|]. unfold state_after. cbn [nth_state]. destruct (Df u Su) as (Sn & _ & _ & Q & _). rewrite (proj1 (Q t)). now apply IH.
  Qed.
  Lemma states_dual n : forall u, smooth_tree u -> state_after pd n (dual_tree u) = dual_tree (state_after pc n u).
  Proof.
    induction n as [|n IH]; intros u Su; [reflexivity|]. unfold state_after. cbn [nth_state]. destruct (Df u Su) as (Sn & _ & _ & _ & Q & _). rewrite Q. now apply IH.
  Qed.
  Lemma calls_at_time t n : forall u, smooth_tree u -> calls_of (pq t) n (tree_at t u) = map (call_at t) (calls_of pc n u).
  Proof.
    induction n as [|n IH]; intros u Su; [reflexivity|]. unfold calls_of. cbn [loop_calls]. destruct (Df u Su) as (Sn & _ & _ & Q & _).
    destruct (Q t) as (A & B & C). rewrite map_app, A. unfold calls_of in IH. rewrite IH by exact Sn. f_equal.
    unfold simple_calls. rewrite B, C, map_app. unfold dict_at, move_dict. rewrite !map_map. reflexivity.
  Qed.
  Lemma calls_dual n : forall u, smooth_tree u -> calls_of pd n (dual_tree u) = map dual_call (calls_of pc n u).
  Proof.
    induction n as [|n IH]; intros u Su; [reflexivity|]. unfold calls_of. cbn [loop_calls]. destruct (Df u Su) as (Sn & _ & _ & _ & A & B & C).
    rewrite map_app, A. unfold calls_of in IH. rewrite IH by exact Sn. f_equal.
    unfold simple_calls. rewrite B, C, map_app. unfold dual_dict, move_dict. rewrite !map_map. reflexivity.
  Qed.
  Lemma calls_smooth_from n : forall u, smooth_tree u -> (forall k, NoDup (dkeys (p_updates pc (state_after pc k u)))) -> Forall smooth_call (calls_of pc n u).
  Proof.
    induction n as [|n IH]; intros u Su ND; [constructor|]. unfold calls_of. cbn [loop_calls]. destruct (Df u Su) as (Sn & Sd & Sh & _).
    apply Forall_app. split; [|apply IH; [exact Sn|intros k; exact (ND (S k))]]. unfold simple_calls. apply Forall_app. split; [|repeat constructor; exact Sh].
    apply Forall_forall. intros x Hx. apply in_map_iff in Hx as ([k v] & <- & Hx). cbn. apply (Sd k). apply dget_nodup; [exact (ND 0)|exact Hx].
  Qed.
  Lemma calls_smooth n : Forall smooth_call (calls_of pc n init).
  Proof. apply calls_smooth_from; [exact Si|]. intros k. apply (Fi k). Qed.
  Lemma calls_well n : Forall call_wf (calls_of pc n init).
  Proof. eapply (calls_of_wf (N := CurveNum)); eauto. Qed.

  Notation lq t := (layer_of (state_at t c0) (pq t) (lazyq t)).
  Notation ld := (layer_of (dual_state c0) pd lazyd).
  Lemma executes_at t : exists Q V, execute_act (lq t) (tree_at t init) (depq t) bound check = Ok (Q, V).
  Proof.
    apply C71_execute_act_returns; [apply (wf_at c0 W)|apply (fresh_at c0 Fr)| |exact Em|apply Lq| |].
    - cbn. destruct (accumulators c0); [contradiction|discriminate].
    - intros k. fold (state_after (pq t) k (tree_at t init)). rewrite states_at by exact Si. destruct (Df _ (states_smooth k init Si)) as (_ & _ & _ & Q & _). destruct (Q t) as (_ & B & C).
      rewrite B, C. apply (move_fits (N := CurveNum) (M := QcNum) (at_time t) (at_time t)). apply Fi.
    - destruct (Df _ Si) as (_ & _ & _ & Q & _). rewrite (proj1 (Q t)). unfold abstract_user in *. unfold tree_at. rewrite !leaves_move, !structure_move, !map_map. exact Au.
  Qed.
  Lemma executes_dual : exists D U, execute_act ld (dual_tree init) depd bound check = Ok (D, U).
  Proof.
    apply C71_execute_act_returns; [apply (wf_dual c0 W)|apply (fresh_dual c0 Fr)| |exact Em|apply Ld| |].
    - cbn. destruct (accumulators c0); [contradiction|discriminate].
    - intros k. fold (state_after pd k (dual_tree init)). rewrite states_dual by exact Si. destruct (Df _ (states_smooth k init Si)) as (_ & _ & _ & _ & _ & B & C).
      rewrite B, C. apply (move_fits (N := CurveNum) (M := DualNum) snd snd). apply Fi.
    - destruct (Df _ Si) as (_ & _ & _ & _ & Q & _). rewrite Q. unfold abstract_user in *. unfold dual_tree. rewrite !leaves_move, !structure_move, !map_map. exact Au.
  Qed.
  Notation M := (Z.to_nat (Z.max 0 bound)).
  Notation rq t m := (run (state_at t c0) (map (call_at t) (calls_of pc m init))).
  Notation rd m := (run (dual_state c0) (map dual_call (calls_of pc m init))).
  Lemma calls_prefix m : m <= M -> exists b, calls_of pc M init = calls_of pc m init ++ b.
  Proof. intros L. replace M with (m + (M - m)) by lia. unfold calls_of. rewrite loop_calls_split. eauto. Qed.
  Lemma loop_differentiated m i : m <= M -> i < size (batch_shape c0) -> differentiated i (rd m) (fun t => rq t m).
  Proof.
    intros L Hi. apply history_differentiated; auto using calls_well, calls_smooth. destruct (calls_prefix m L) as [b Hb].
    exact (off_corners_prefix c0 _ i (calls_well M) (calls_smooth M) (Oc i Hi) _ _ Hb).
  Qed.
  Lemma halted_length {N} (s : state N) : wf s -> length (data (halted_batches s)) = size (batch_shape s).
  Proof. intros Ws. pose proof (wf_p _ Ws) as A. unfold halted_batches, gt_scl, tensor_map. cbn [data]. rewrite map_length. exact A. Qed.
  Lemma dual_wf m : wf (rd m).
  Proof. exact (fo_wf _ _ _ (follows_D c0 _ W Fr (calls_well m))). Qed.
  Lemma at_wf t m : wf (rq t m).
  Proof. exact (fo_wf _ _ _ (follows_Q c0 _ W Fr (calls_well m) t)). Qed.
  Lemma dual_batch m : batch_shape (rd m) = batch_shape c0.
  Proof. exact (frame_shape _ _ (fo_frame _ _ _ (follows_D c0 _ W Fr (calls_well m)))). Qed.
  Lemma at_batch t m : batch_shape (rq t m) = batch_shape c0.
  Proof. exact (frame_shape _ _ (fo_frame _ _ _ (follows_Q c0 _ W Fr (calls_well m) t))). Qed.
  Lemma same_halted : near (fun t => forall m, m < S M -> halted_batches (rq t m) = halted_batches (rd m)).
  Proof.
    apply near_forall. intros m Hm.
    apply (near_mp (fun t => forall i, i < size (batch_shape c0) -> nth_error (data (halted_batches (rq t m))) i = nth_error (data (halted_batches (rd m))) i)).
    - intros t H. assert (Sh : shape (halted_batches (rq t m)) = shape (halted_batches (rd m))).
      { change (batch_shape (rq t m) = batch_shape (rd m)). now rewrite dual_batch, at_batch. }
      assert (Da : data (halted_batches (rq t m)) = data (halted_batches (rd m))).
      { apply nth_error_ext. intros i. destruct (Nat.lt_ge_cases i (size (batch_shape c0))) as [L|L]; [now apply H|].
        transitivity (@None bool); [|symmetry]; apply nth_error_None; rewrite halted_length by (apply at_wf || apply dual_wf); rewrite ?at_batch, ?dual_batch; exact L. }
      destruct (halted_batches (rq t m)), (halted_batches (rd m)). cbn in *. now subst.
    - apply near_forall. intros i Hi. apply (loop_differentiated m i); [lia|exact Hi].
  Qed.
  Lemma all_halted_batches {N1 N2} (a : state N1) (b : state N2) : halted_batches a = halted_batches b -> all_halted a -> all_halted b.
  Proof. intros E. rewrite <- !all_halted_iff. unfold is_completely_halted. now rewrite E. Qed.

  Lemma execution_differentiated : exists D U Q V,
    execute_act ld (dual_tree init) depd bound check = Ok (D, U) /\
    (forall t, execute_act (lq t) (tree_at t init) (depq t) bound check = Ok (Q t, V t)) /\
    differentiated_near D Q /\
    exists user, smooth_tree user /\ U = dual_tree user /\ near (fun t => V t = tree_at t user).
  Proof.
    destruct executes_dual as (D & U & HD).
    set (Q := fun t => match execute_act (lq t) (tree_at t init) (depq t) bound check with Ok (c, _) => c | Err _ => state_at t c0 end).
    set (V := fun t => match execute_act (lq t) (tree_at t init) (depq t) bound check with Ok (_, u) => u | Err _ => tree_at t init end).
    assert (HQ : forall t, execute_act (lq t) (tree_at t init) (depq t) bound check = Ok (Q t, V t)).
    { intros t. unfold Q, V. destruct (executes_at t) as (c & u & ->). reflexivity. }
    exists D, U, Q, V. split; [exact HD|]. split; [exact HQ|].
    destruct (C71_execute_act_is_a_history _ _ _ _ _ _ _ _ _ _ _ (wf_dual c0 W) HD) as (n & HU & Ln & Sn & _ & An & Mn).
    fold (state_after pd n (dual_tree init)) in HU. rewrite states_dual in HU by exact Si.
    assert (Cd : forall m, loop_calls (p_next pd) (p_updates pd) (p_halting pd) m (dual_tree init) = map dual_call (calls_of pc m init)) by (intros m; now apply calls_dual).
    rewrite Cd in Sn. assert (Mn' : forall m, m < n -> ~ all_halted (rd m)) by (intros m Hm; rewrite <- Cd; now apply Mn). clear Mn.
    assert (LM : n <= M) by lia.
    assert (K : near (fun t => same_state (Q t) (rq t n) /\ V t = tree_at t (state_after pc n init) /\ halted_batches (rq t n) = halted_batches (rd n))).
    { generalize same_halted. apply near_mp. intros t SH.
      destruct (C71_execute_act_is_a_history _ _ _ _ _ _ _ _ _ _ _ (wf_at c0 W t) (HQ t)) as (n' & HU' & Ln' & Sn' & _ & An' & Mn2).
      fold (state_after (pq t) n' (tree_at t init)) in HU'. rewrite states_at in HU' by exact Si.
      assert (Cq : forall m, loop_calls (p_next (pq t)) (p_updates (pq t)) (p_halting (pq t)) m (tree_at t init) = map (call_at t) (calls_of pc m init)) by (intros m; now apply calls_at_time).
      rewrite Cq in Sn'. assert (Mn2' : forall m, m < n' -> ~ all_halted (rq t m)) by (intros m Hm; rewrite <- Cq; now apply Mn2). clear Mn2.
      assert (E : n' = n).
      { destruct (Nat.lt_trichotomy n' n) as [L|[L|L]]; [exfalso|exact L|exfalso].
        - destruct An' as [A|A]; [|lia]. apply (Mn' n' L). apply (all_halted_batches (rq t n')); [apply SH; lia|].
          eapply all_halted_same; [exact Sn'|exact A].
        - destruct An as [A|A]; [|lia]. apply (Mn2' n L). apply (all_halted_batches (rd n)); [symmetry; apply SH; lia|].
          eapply all_halted_same; [exact Sn|exact A]. }
      subst n'. split; [exact Sn'|]. split; [exact HU'|]. apply SH. lia. }
    split.
    2:{ exists (state_after pc n init). split; [now apply states_smooth|]. split; [exact HU|]. generalize K. apply near_mp. intros t (_ & X & _). exact X. }
    assert (Bd : batch_shape D = batch_shape c0) by (rewrite <- (dual_batch n); unfold batch_shape; now rewrite (ss_p _ _ Sn)).
    split.
    { generalize K. apply near_mp. intros t (X & _ & Y). rewrite <- (halted_same _ _ Sn), <- (halted_same _ _ X). exact Y. }
    assert (Arr : forall get : forall N, state N -> array N, (forall N (a b : state N), same_state a b -> get N a = get N b) -> awf (get DualNum (rd n)) -> a_shape (get DualNum (rd n)) = batch_shape c0 ->
      (forall i, i < size (batch_shape c0) -> has_derivative (fun N s => nth_error (a_data (get N s)) i) (rd n) (fun t => rq t n)) ->
      forall i, has_derivative_near (fun N s => nth_error (a_data (get N s)) i) D Q).
    { intros get Gs Wg Sg H i x Hx. rewrite (Gs _ _ _ Sn) in Hx.
      assert (Hi : i < size (batch_shape c0)).
      { assert (L : i < length (a_data (get DualNum (rd n)))) by (apply nth_error_Some; congruence). unfold awf, twf in Wg. rewrite <- Sg. unfold a_data, a_shape in *. lia. }
      destruct (H i Hi x Hx) as (X & HX & DX). exists X. split; [|exact DX]. generalize K. apply near_mp. intros t (S1 & _). now rewrite (Gs _ _ _ S1). }
    pose proof (dual_wf n) as Wd.
    split; [apply (Arr (@probabilities)); [intros N a b E; apply (ss_p _ _ E)|apply Wd|apply dual_batch|intros i Hi; apply (loop_differentiated n i LM Hi)]|].
    split; [apply (Arr (@residuals)); [intros N a b E; apply (ss_r _ _ E)|apply Wd|rewrite (wf_r_shape _ Wd); apply dual_batch|intros i Hi; apply (loop_differentiated n i LM Hi)]|].
    split; [apply (Arr (@iterations)); [intros N a b E; apply (ss_i _ _ E)|apply Wd|rewrite (wf_i_shape _ Wd); apply dual_batch|intros i Hi; apply (loop_differentiated n i LM Hi)]|].
    intros k l j x Hx.
    assert (Es : forall N (a b : state N), same_state a b -> entry a k l j = entry b k l j) by (intros N a b E; unfold entry, update_at; now rewrite (ss_acc _ _ E k)).
    rewrite (Es _ _ _ Sn) in Hx. destruct (belongs_all _ _ _ _ _ Wd Hx) as [i Bi]. pose proof (belongs_lt _ _ _ _ _ _ Wd Bi Hx) as Li. rewrite dual_batch in Li.
    destruct (loop_differentiated n i LM Li) as (_ & _ & _ & _ & H). destruct (H k l j Bi x Hx) as (X & HX & DX). exists X. split; [|exact DX].
    generalize K. apply near_mp. intros t (S1 & _). rewrite (Es _ _ _ S1). apply HX.
  Qed.
End Loop.
