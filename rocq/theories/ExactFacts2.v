(** * More consequences in exact arithmetic: reset, depression constant, liveness. *)
From Coq Require Import QArith Qcanon.
From Verif Require Import Base PyTree Tensor Num Utils States Controller Wf Spec History ElementSpec.
From Verif Require Import BaseFacts PyTreeFacts TensorFacts ControllerFacts IterateFacts ResetFacts
  HistoryFacts AgreeFacts QcFacts SpecFacts GravesFacts ExactFacts.
Close Scope Qc_scope.
Open Scope nat_scope.

Section Ext.
  Context {N : numsys}.
  Notation tr := (tree (array N)).
  Lemma array_eq (a b : array N) : sig a = sig b -> a_data a = a_data b -> a = b.
  Proof.
    destruct a as [da [sa xa]], b as [db [sb xb]]. unfold sig, a_shape, a_data. cbn. congruence.
  Qed.
  Lemma array_ext (a b : array N) :
    sig a = sig b -> awf a -> awf b ->
    (forall i x, nth_error (a_data a) i = Some x -> nth_error (a_data b) i = Some x) -> a = b.
  Proof.
    intros Hs Ha Hb H. apply array_eq; [assumption|]. apply nth_error_ext. intros i.
    destruct (nth_error (a_data a) i) as [x|] eqn:E; [symmetry; auto|].
    symmetry. apply nth_error_None. apply nth_error_None in E. unfold awf, twf, a_data in *.
    injection Hs as Hs _. unfold a_shape in Hs. rewrite Hb, <- Hs, <- Ha. exact E.
  Qed.
  Lemma alike_ext (t1 t2 : tr) :
    alike t1 t2 ->
    (forall l a b, nth_error (leaves t1) l = Some a -> nth_error (leaves t2) l = Some b -> a = b) ->
    t1 = t2.
  Proof.
    intros Hal H. apply tree_ext; [apply Hal|]. apply nth_error_ext. intros i.
    destruct (nth_error (leaves t1) i) as [x|] eqn:E.
    - destruct (nth_error_same_length _ (leaves t2) _ _ (alike_len _ _ Hal) E) as [y Hy].
      rewrite Hy. f_equal. eauto.
    - symmetry. apply nth_error_None. apply nth_error_None in E. now rewrite <- (alike_len _ _ Hal).
  Qed.
End Ext.

(** ** Reset (C15, C17) *)
Theorem reset_exact (s s' : st) :
  wf s -> reset_batches s = Ok s' ->
  (epsilon s' = epsilon s /\ depression_constant s' = depression_constant s /\
   error_mode s' = error_mode s /\ defaults s' = defaults s /\ updates s' = updates s) /\
  (sig (probabilities s') = sig (probabilities s) /\ sig (residuals s') = sig (residuals s) /\
   sig (iterations s') = sig (iterations s) /\ dkeys (accumulators s') = dkeys (accumulators s)) /\
  forall i halted, nth_error (data (halted_batches s)) i = Some halted ->
    (nth_error (a_data (probabilities s')) i =
       if halted then Some 0%Qc else nth_error (a_data (probabilities s)) i) /\
    (nth_error (a_data (residuals s')) i =
       if halted then Some 0%Qc else nth_error (a_data (residuals s)) i) /\
    (nth_error (a_data (iterations s')) i =
       if halted then Some 0%Qc else nth_error (a_data (iterations s)) i) /\
    forall k t, dget k (accumulators s) = Some t ->
      exists d t', dget k (defaults s) = Some d /\ dget k (accumulators s') = Some t' /\ alike t' t /\
        forall l a dl a', nth_error (leaves t) l = Some a -> nth_error (leaves d) l = Some dl ->
          nth_error (leaves t') l = Some a' ->
          forall R, a_shape a = batch_shape s ++ R ->
          forall j, j / size R = i ->
            nth_error (a_data a') j = nth_error (a_data (if halted then dl else a)) j.
Proof.
  intros Hw H. destruct (reset_effect s s' Hw H) as [C Hw'].
  split; [repeat split; apply C|]. split; [repeat split; apply C|].
  intros i halted Hh. apply halted_get_inv in Hh as (p & Hp & Eh). subst halted.
  split; [|split; [|split]].
  - rewrite (rs_p _ _ C i p Hp), kept_cases. destruct (halted_at s p); auto.
  - destruct (batch_get s _ i p Hw (wf_r _ Hw) (wf_r_shape _ Hw) Hp) as [r Hr].
    rewrite (rs_r _ _ C i p r Hp Hr), kept_cases. destruct (halted_at s p); auto.
  - destruct (batch_get s _ i p Hw (wf_i _ Hw) (wf_i_shape _ Hw) Hp) as [n Hn].
    rewrite (rs_i _ _ C i p n Hp Hn), kept_cases. destruct (halted_at s p); auto.
  - intros k t Ht. destruct (default_of s k t Hw Ht) as (d & Hd & Hal & Hawd).
    destruct (rs_acc _ _ C k t d Ht Hd) as (t' & Ht' & Hal' & Heff).
    exists d, t'. repeat split; auto; try apply Hal'.
    intros l a dl a' Ha Hdl Ha' R HR j Hj.
    destruct (Forall_nth _ _ _ _ (wf_acc _ Hw _ _ Ht) Ha) as (Haw & _).
    destruct (Forall_nth _ _ _ _ (wf_acc _ Hw' _ _ Ht') Ha') as (Haw' & _).
    pose proof (Forall_nth _ _ _ _ Hawd Hdl) as Hawdl.
    pose proof (alike_nth _ _ _ _ _ Hal Ha Hdl) as S1. pose proof (alike_nth _ _ _ _ _ Hal' Ha' Ha) as S2.
    injection S1 as S1 _. injection S2 as S2 _.
    assert (L1 : length (a_data dl) = length (a_data a)).
    { unfold awf, twf, a_data, a_shape in *. now rewrite Hawdl, Haw, S1. }
    assert (L2 : length (a_data a') = length (a_data a)).
    { unfold awf, twf, a_data, a_shape in *. now rewrite Haw', Haw, S2. }
    destruct (nth_error (a_data a) j) as [av|] eqn:Eav.
    + destruct (nth_error_same_length _ (a_data dl) _ _ (eq_sym L1) Eav) as [dv Edv].
      rewrite (Heff l a dl a' Ha Hdl Ha' R HR j av dv p Eav Edv ltac:(now rewrite Hj)).
      destruct (halted_at s p); congruence.
    + apply nth_error_None in Eav. transitivity (@None (val QcNum)).
      * apply nth_error_None. now rewrite L2.
      * symmetry. destruct (halted_at s p); apply nth_error_None; [now rewrite L1|assumption].
Qed.

Lemma structure_leaf {A B} (t : tree A) (t' : tree B) a :
  structure t = structure t' -> t' = Leaf a -> exists x, t = Leaf x.
Proof. intros H E. subst t'. destruct t as [x|n cs]; [eauto|discriminate]. Qed.

Theorem reset_idempotent (s s' : st) :
  wf s -> (epsilon s <= 1)%Qc -> reset_batches s = Ok s' -> reset_batches s' = Ok s'.
Proof.
  intros Hw He H. destruct (reset_effect s s' Hw H) as [C Hw'].
  pose proof (proj1 (reset_ok_iff s Hw) (ex_intro _ _ H)) as [Hid Hrs].
  pose proof (rs_p_sig _ _ C) as Eb. injection Eb as Eb _. fold (batch_shape s') (batch_shape s) in Eb.
  assert (Hex : exists s'', reset_batches s' = Ok s'').
  { apply reset_ok_iff; [assumption|]. split.
    - intros k u Hu. rewrite (rs_upd _ _ C) in Hu. eauto.
    - intros k t' Ht'. rewrite Eb.
      assert (Hin : In k (dkeys (accumulators s))) by (rewrite <- (rs_keys _ _ C); apply dget_keys; eauto).
      apply dget_keys in Hin as [t Ht]. destruct (default_of s k t Hw Ht) as (d & Hd & _ & _).
      destruct (rs_acc _ _ C k t d Ht Hd) as (x & Hx & Hal & _).
      assert (x = t') by congruence. subst x.
      destruct (Hrs k t Ht) as [Hb|[[a Ha]|Hl]]; [now left| |].
      + right; left. eapply structure_leaf; [apply Hal|exact Ha].
      + right; right. apply length_zero_iff_nil. rewrite (alike_len _ _ Hal), Hl. reflexivity. }
  destruct Hex as [s'' H']. rewrite H'. f_equal.
  destruct (reset_effect s' s'' Hw' H') as [C' Hw''].
  assert (Hnh : forall i p, nth_error (a_data (probabilities s')) i = Some p -> halted_at s' p = false).
  { intros i p Hp. destruct (reset_inv s s' i p Hw H Hp) as (q & Hq & ->). rewrite kept_cases.
    destruct (halted_at s q) eqn:E; unfold halted_at, threshold in *; rewrite (rs_eps _ _ C); [|exact E].
    cbn [v_ltb v_of_scl s_one_sub QcNum]. apply Qcltb_ge. revert He. generalize (epsilon s). cbn [scl QcNum]. qc. }
  assert (Hk : forall i p v, nth_error (a_data (probabilities s')) i = Some p -> kept s' p v = v).
  { intros i p v Hp. now rewrite kept_cases, (Hnh i p Hp). }
  assert (Earr : forall (f : st -> array QcNum),
     sig (f s'') = sig (f s') -> awf (f s'') -> awf (f s') -> a_shape (f s') = batch_shape s' ->
     (forall i p v, nth_error (a_data (probabilities s')) i = Some p -> nth_error (a_data (f s')) i = Some v ->
        nth_error (a_data (f s'')) i = Some (kept s' p v)) -> f s'' = f s').
  { intros f Hsig Ha'' Ha' Hsh Hel. symmetry. apply array_ext; auto. intros i x Hx.
    assert (Hi : exists p, nth_error (a_data (probabilities s')) i = Some p).
    { apply nth_error_lt. apply nth_error_some_lt in Hx. rewrite (wf_batch_len _ Hw').
      unfold awf, twf, a_data in *. rewrite Ha' in Hx. unfold a_shape in Hsh. now rewrite Hsh in Hx. }
    destruct Hi as [p Hp]. rewrite (Hel i p x Hp Hx). f_equal. eapply Hk; eauto. }
  destruct s'' as [e2 i2 r2 p2 d2 a2 u2 c2 m2], s' as [e1 i1 r1 p1 d1 a1 u1 c1 m1].
  assert (E1 : e2 = e1) by apply (rs_eps _ _ C'). assert (E2 : c2 = c1) by apply (rs_dep _ _ C').
  assert (E3 : m2 = m1) by apply (rs_mode _ _ C'). assert (E4 : d2 = d1) by apply (rs_def _ _ C').
  assert (E5 : u2 = u1) by apply (rs_upd _ _ C').
  assert (E6 : p2 = p1).
  { apply (Earr probabilities); auto; try apply Hw'; try apply Hw''; try apply (rs_p_sig _ _ C').
    intros i p v Hp Hv. assert (v = p) by (cbn in Hp, Hv; congruence). subst v. apply (rs_p _ _ C' i p Hp). }
  assert (E7 : r2 = r1).
  { apply (Earr residuals); auto; try apply Hw'; try apply Hw''; try apply (rs_r_sig _ _ C').
    intros i p v Hp Hv. apply (rs_r _ _ C' i p v Hp Hv). }
  assert (E8 : i2 = i1).
  { apply (Earr iterations); auto; try apply Hw'; try apply Hw''; try apply (rs_i_sig _ _ C').
    intros i p v Hp Hv. apply (rs_i _ _ C' i p v Hp Hv). }
  assert (E9 : a2 = a1).
  { apply dict_ext.
    - apply (rs_keys _ _ C').
    - apply (wf_nodup_a _ Hw'').
    - intros k. pose proof (rs_keys _ _ C') as Ek. cbn [accumulators] in Ek.
      destruct (dget k a1) as [t|] eqn:Et.
      + set (s1 := mkState e1 i1 r1 p1 d1 a1 u1 c1 m1) in *.
        destruct (default_of s1 k t Hw' Et) as (d & Hd & Hald & Hawd).
        destruct (rs_acc _ _ C' k t d Et Hd) as (t' & Ht' & Hal & Heff). cbn [accumulators] in Ht'.
        rewrite Ht'. f_equal. apply alike_ext; [assumption|]. intros l a' a Ha' Ha.
        destruct (nth_error_same_length _ (leaves d) _ _ (alike_len _ _ Hald) Ha) as [dl Hdl].
        destruct (Forall_nth _ _ _ _ (wf_acc _ Hw' _ _ Et) Ha) as (Haw & _ & R & HR).
        assert (Ht'2 : dget k (accumulators (mkState e2 i2 r2 p2 d2 a2 u2 c2 m2)) = Some t') by exact Ht'.
        destruct (Forall_nth _ _ _ _ (wf_acc _ Hw'' _ _ Ht'2) Ha') as (Haw' & _).
        pose proof (Forall_nth _ _ _ _ Hawd Hdl) as Hawdl.
        pose proof (alike_nth _ _ _ _ _ Hald Ha Hdl) as S1. injection S1 as S1 _.
        assert (L1 : length (a_data dl) = length (a_data a)).
        { unfold awf, twf, a_data, a_shape in *. now rewrite Hawdl, Haw, S1. }
        symmetry. apply array_ext; auto.
        * symmetry. eapply alike_nth; eauto.
        * intros j x Hx.
          destruct (nth_error_same_length _ (a_data dl) _ _ (eq_sym L1) Hx) as [dv Edv].
          assert (Hib : exists p, nth_error (a_data (probabilities s1)) (j / size R) = Some p).
          { apply nth_error_lt. rewrite (wf_batch_len s1 Hw').
            unfold awf, twf in Haw. fold (a_shape a) in Haw. rewrite HR in Haw.
            now destruct (size_pos_nth _ _ _ _ _ Haw Hx). }
          destruct Hib as [p Hp].
          rewrite (Heff l a dl a' Ha Hdl Ha' R HR j x dv p Hx Edv Hp).
          now rewrite (Hnh _ p Hp).
      + apply dget_none. rewrite Ek. now apply dget_none. }
  now subst.
Qed.

(** ** The depression constant (C18, C19) *)
Definition res_map {A B} (f : A -> B) (r : res A) : res B :=
  match r with Ok a => Ok (f a) | Err e => Err e end.

Lemma iterate_loop_dep {N} (s : state N) d h names accs upds :
  iterate_loop (with_dep s d) h names accs upds = iterate_loop s h names accs upds.
Proof.
  revert accs upds. induction names as [|n names IH]; intros accs upds; [reflexivity|].
  cbn [iterate_loop]. unfold bind at 1. symmetry. unfold bind at 1.
  change (update_accumulator (with_dep s d) h) with (update_accumulator s h).
  destruct (rewrap RuntimeError _) as [[a u]|]; [|reflexivity]. symmetry. apply IH.
Qed.

Theorem depression_scales (s : st) (h : array QcNum) :
  (0 <= depression_constant s)%Qc -> (depression_constant s <= 1)%Qc ->
  Forall in01 (a_data h) ->
  iterate_act (with_dep s 1%Qc) (times (depression_constant s) h) =
  res_map (fun s' : st => with_dep s' 1%Qc) (iterate_act s h).
Proof.
  intros H0 H1 Hh. unfold iterate_act. cbn [with_dep probabilities iterations updates accumulators a_dt].
  change (a_shape (times (depression_constant s) h)) with (a_shape h).
  destruct (guard _ ValueError) as [[]|e]; [|reflexivity]. cbn [bind].
  assert (E : process_probabilities (with_dep s 1%Qc)
                (a_clip01 (times (depression_constant s) h))
            = process_probabilities s (a_clip01 h)).
  { unfold process_probabilities. cbn [with_dep depression_constant].
    assert (Es : a_scale (1%Qc : scl QcNum) (a_clip01 (times (depression_constant s) h)) =
                 a_scale (depression_constant s) (a_clip01 h)).
    { unfold a_scale, a_clip01, times, tensor_map, a_shape, a_data. cbn [a_dt a_ten shape data]. f_equal. f_equal.
      rewrite !map_map. apply map_ext_in. intros v Hv.
      rewrite Forall_forall in Hh. destruct (Hh v Hv) as [V0 V1].
      fold (clip01 (N := QcNum) v) (clip01 (N := QcNum) (depression_constant s * v)%Qc).
      rewrite !clip01_clamp. cbn [v_mul v_of_scl QcNum].
      rewrite (clamp_id v V0 V1), clamp_id.
      - change (1 * (depression_constant s * v) = depression_constant s * v)%Qc. apply Qcmult_1_l.
      - now apply Qcmult_nonneg.
      - revert H0 H1 V0 V1. cbn [scl val QcNum]. generalize (depression_constant s : Qc). cbn [val QcNum] in v.
        clear. revert v. qcn. }
    rewrite Es. reflexivity. }
  rewrite E. destruct (process_probabilities s (a_clip01 h)) as [[[h2 r'] p']|e]; [|reflexivity].
  cbn [bind]. rewrite iterate_loop_dep.
  destruct (iterate_loop s h2 _ _ _) as [[a u]|e]; [|reflexivity]. cbn [bind].
  change (halted_batches (with_dep s 1%Qc)) with (halted_batches s).
  destruct (a_select (halted_batches s) (iterations s) (a_plus_one (iterations s))) as [i'|e]; reflexivity.
Qed.

Theorem depression_zero (s : st) (h : array QcNum) s' i :
  wf s -> wf_pending s -> awf h -> depression_constant s = 0%Qc -> iterate_act s h = Ok s' ->
  nth_error (data (halted_batches s)) i = Some false ->
  nth_error (a_data (probabilities s')) i = nth_error (a_data (probabilities s)) i /\
  nth_error (a_data (residuals s')) i = nth_error (a_data (residuals s)) i /\
  nth_error (data (halted_batches s')) i = Some false /\
  forall k t t', dget k (accumulators s) = Some t -> dget k (accumulators s') = Some t' ->
    forall l a a', nth_error (leaves t) l = Some a -> nth_error (leaves t') l = Some a' ->
    forall R, a_shape a = batch_shape s ++ R ->
    forall j, j / size R = i -> nth_error (a_data a') j = nth_error (a_data a) j.
Proof.
  intros Hw Hp Ha Hd H Hh. destruct (iterate_committed s h s' Hw Hp Ha H) as (C & Hw' & _).
  pose proof (iterate_ok_iff s h Hw Hp Ha) as [Hok _]. destruct Hok as (Hsh & _ & Hrd); [eauto|].
  apply halted_get_inv in Hh as (p & Hpp & Hh). symmetry in Hh.
  destruct (batch_get s h i p Hw Ha Hsh Hpp) as [v Hv].
  assert (Hsc : scaled s v = 0%Qc).
  { rewrite scaled_spec, Hd. change (0 * clamp v = 0)%Qc. ring. }
  assert (Hhn : halts_now s p v = false).
  { unfold halts_now. rewrite Hsc. cbn [v_add QcNum]. rewrite Qcplus_0_l. exact Hh. }
  assert (Hwt : weight s p v = 0%Qc) by (unfold weight; now rewrite Hhn).
  assert (Hnp : next_p s p v = p).
  { unfold next_p. rewrite Hwt. cbn [v_add QcNum]. apply Qcplus_0_r. }
  destruct (batch_get s _ i p Hw (wf_r _ Hw) (wf_r_shape _ Hw) Hpp) as [r Hr].
  pose proof (cm_p _ _ _ C i p v Hpp Hv) as P'. rewrite Hnp in P'.
  split; [now rewrite P'|]. split.
  { rewrite (cm_r _ _ _ C i p r v Hpp Hr Hv), Hr. unfold next_r. now rewrite Hhn. }
  split.
  { rewrite (halted_get _ i p P'). unfold halted_at, threshold in *. now rewrite (cm_eps _ _ _ C), Hh. }
  intros k t t' Ht Ht' l a a' Hla Hla' R HR j Hj.
  destruct (cm_acc _ _ _ C k t Ht) as (u & x & Hu & Hx & Hal & Hlu & Heff).
  assert (x = t') by congruence. subst x.
  destruct (nth_error_same_length _ (leaves u) _ _ (eq_sym Hlu) Hla) as [ul Hul].
  destruct (Forall_nth _ _ _ _ (wf_acc _ Hw _ _ Ht) Hla) as (Haw & _).
  destruct (Forall_nth _ _ _ _ (wf_acc _ Hw' _ _ Ht') Hla') as (Haw' & _).
  pose proof (alike_nth _ _ _ _ _ Hal Hla' Hla) as S2. injection S2 as S2 _.
  assert (L2 : length (a_data a') = length (a_data a)).
  { unfold awf, twf, a_data, a_shape in *. now rewrite Haw', Haw, S2. }
  destruct (ready_leaf s k t u l a ul Hw Hp Hrd Ht Hu Hla Hul) as [Us Ul].
  destruct (nth_error (a_data a) j) as [av|] eqn:Eav.
  - destruct (nth_error_same_length _ (a_data ul) _ _ (eq_sym Ul) Eav) as [uv Euv].
    rewrite (Heff l a ul a' Hla Hul Hla' R HR j av uv p v Eav Euv ltac:(now rewrite Hj) ltac:(now rewrite Hj)).
    f_equal. unfold next_a. rewrite Hh, Hwt. cbn [v_add v_mul QcNum].
    cbn [val QcNum] in av, uv |- *. clear. revert av uv. intros; ring.
  - apply nth_error_None. apply nth_error_None in Eav. now rewrite L2.
Qed.

(** A negative constant breaks the invariants, whatever the other settings. *)
Theorem depression_negative (s : st) (h : array QcNum) s' i p v :
  wf s -> wf_pending s -> awf h -> (depression_constant s < 0)%Qc -> iterate_act s h = Ok s' ->
  nth_error (a_data (probabilities s)) i = Some p -> nth_error (a_data h) i = Some v -> (0 < v)%Qc ->
  (halted_at s p = false -> exists p', nth_error (a_data (probabilities s')) i = Some p' /\ (p' < p)%Qc) /\
  ((p + depression_constant s * clamp v <= 1 - epsilon s)%Qc ->
     nth_error (data (halted_batches s')) i = Some false).
Proof.
  intros Hw Hp Ha Hd H Hpp Hv Hv0. destruct (iterate_committed s h s' Hw Hp Ha H) as (C & Hw' & _).
  pose proof (cm_p _ _ _ C i p v Hpp Hv) as P'.
  assert (Hcl : (0 < clamp v)%Qc).
  { unfold clamp. destruct (Qclt_le_dec v 0); [exfalso; revert Hv0 q; cbn [val QcNum]; qc|].
    destruct (Qclt_le_dec 1 v); [reflexivity|assumption]. }
  assert (Hsn : (scaled s v < 0)%Qc).
  { rewrite scaled_spec. revert Hcl Hd. generalize (clamp v). cbn [scl QcNum].
    generalize (depression_constant s : Qc). qcn. }
  split.
  - intros Hh. exists (next_p s p v). split; [exact P'|].
    assert (Hhn : halts_now s p v = false).
    { unfold halts_now, halted_at in *. cbn [v_ltb v_add QcNum] in *. apply Qcltb_ge in Hh. apply Qcltb_ge.
      revert Hh Hsn. cbn [val QcNum] in *. generalize (threshold s : Qc) (scaled s v : Qc). clear. revert p. qc. }
    unfold next_p, weight. rewrite Hhn. cbn [v_add QcNum]. revert Hsn. cbn [val QcNum] in *.
    generalize (scaled s v : Qc). clear. revert p. qc.
  - intros Hle. rewrite (halted_get _ i _ P'). f_equal.
    assert (Hhn : halts_now s p v = false).
    { unfold halts_now, threshold. cbn [v_ltb v_add v_of_scl s_one_sub QcNum]. apply Qcltb_ge.
      rewrite scaled_spec, Qcplus_comm. exact Hle. }
    unfold next_p, weight. rewrite Hhn. unfold halted_at, threshold.
    rewrite (cm_eps _ _ _ C). cbn [v_ltb v_add v_of_scl s_one_sub QcNum]. apply Qcltb_ge.
    rewrite scaled_spec. exact Hle.
Qed.

(** ** Liveness under a probability floor (C55) *)
Definition is_iter (c : call QcNum) : bool := match c with CIter _ => true | _ => false end.
Definition iters (cs : list (call QcNum)) : nat := length (filter is_iter cs).
(** every halting tensor gives every element at least [q] of effective halting probability *)
Definition has_floor (s0 : st) (q : Qc) (c : call QcNum) : Prop :=
  match c with
  | CIter h => forall i v, nth_error (a_data h) i = Some v -> (q <= depression_constant s0 * clamp v)%Qc
  | _ => True
  end.
Lemma total_floor q hs : Forall (fun h => (q <= h)%Qc) hs -> (Qc_of_nat (length hs) * q <= total hs)%Qc.
Proof.
  induction 1 as [|h hs Hh _ IH]; [cbn; rewrite Qcmult_0_l; apply Qcle_refl|].
  cbn [length total]. rewrite Qc_of_nat_S. revert Hh IH.
  generalize (total hs). intros x Hh IH. replace ((Qc_of_nat (length hs) + 1) * q)%Qc with (q + Qc_of_nat (length hs) * q)%Qc by ring.
  revert Hh IH. generalize (Qc_of_nat (length hs) * q)%Qc. qc.
Qed.
Lemma floor_log s0 q i evs :
  Forall no_reset evs -> Forall (has_floor s0 q) evs ->
  (forall h, In (CIter h) evs -> i < length (a_data h)) ->
  length (past (log0 s0 i evs)) = iters evs /\
  Forall (fun x => (q <= x)%Qc) (hs_of s0 (log0 s0 i evs)).
Proof.
  induction evs as [|c evs IH] using rev_ind; intros Hn Hf Hl; [split; [reflexivity|constructor]|].
  apply Forall_app in Hn as [Hn Hn1]. apply Forall_app in Hf as [Hf Hf1].
  inversion Hn1; inversion Hf1; subst. destruct IH as [IH1 IH2]; auto.
  { intros h Hh. apply Hl. apply in_or_app. now left. }
  rewrite log0_snoc. unfold iters. rewrite filter_app, app_length. fold (iters evs).
  destruct c as [name item|h|]; cbn [log_step filter is_iter length].
  - cbn [past]. rewrite IH1. split; [lia|exact IH2].
  - destruct (nth_error_lt (a_data h) i) as [v Hv]. { apply Hl. apply in_or_app. right. now left. }
    rewrite Hv. cbn [past]. rewrite app_length, IH1. split; [reflexivity|].
    rewrite (hs_of_snoc s0 (log0 s0 i evs)). apply Forall_app. split; [exact IH2|]. constructor; [|constructor].
    rewrite scaled_spec. eauto.
  - now exfalso.
Qed.
Lemma returned_incl {N} (s : state N) cs c : In c (returned s cs) -> In c cs.
Proof.
  revert s. induction cs as [|x cs IH]; intros s H; [destruct H|]. cbn [returned] in H.
  destruct (apply_call s x) as [s'|e].
  - destruct H as [H|H]; [now left|right; eauto].
  - right; eauto.
Qed.
Lemma returned_iter {N} (s : state N) cs h :
  wf s -> wf_pending s -> Forall call_wf cs -> In (CIter h) (returned s cs) ->
  awf h /\ a_shape h = batch_shape s.
Proof.
  revert s. induction cs as [|c cs IH]; intros s Hw Hp Hc H; [destruct H|]. cbn [returned] in H.
  inversion Hc as [|? ? H1 H2]; subst. destruct (apply_call s c) as [s'|e] eqn:E; [|now apply IH].
  destruct H as [->|H].
  - cbn [apply_call call_wf] in *. split; [assumption|].
    pose proof (iterate_ok_iff s h Hw Hp H1) as [Hok _]. destruct Hok as (Hsh & _); [eauto|]. exact Hsh.
  - destruct (apply_call_wf s s' c Hw Hp H1 E) as [Hw' Hp'].
    pose proof (after_frame s c Hw Hp H1) as F. unfold after in F. rewrite E in F.
    destruct (IH s' Hw' Hp' H2 H) as [A B]. split; [assumption|]. rewrite B.
    pose proof (sf_p _ _ F) as X. injection X as X _. exact X.
Qed.
Theorem floor_halts (s0 : st) cs q :
  (0 < epsilon s0)%Qc -> (epsilon s0 <= 1)%Qc -> (0 <= depression_constant s0)%Qc ->
  wf s0 -> fresh s0 -> Forall call_wf cs -> Forall no_reset cs -> Forall (has_floor s0 q) cs ->
  (1 - epsilon s0 < Qc_of_nat (iters (returned s0 cs)) * q)%Qc ->
  is_completely_halted (run s0 cs) = true.
Proof.
  intros He He1 Hd Hw Hf Hc Hn Hfl Hq. apply completely_halted_iff. intros i b Hb.
  apply (graves_mass s0 cs He He1 Hd Hw Hf Hc i b Hb).
  assert (Hn' : Forall no_reset (returned s0 cs)).
  { rewrite Forall_forall in *. intros c H. apply Hn. eapply returned_incl; eauto. }
  assert (Hfl' : Forall (has_floor s0 q) (returned s0 cs)).
  { rewrite Forall_forall in *. intros c H. apply Hfl. eapply returned_incl; eauto. }
  pose proof (run_frame s0 cs Hw (fresh_pending _ Hf) Hc) as F.
  destruct (run_wf s0 cs Hw (fresh_pending _ Hf) Hc) as [Hw' _].
  assert (Hi : i < size (batch_shape s0)).
  { apply halted_get_inv in Hb as (p & Hp & _). apply nth_error_some_lt in Hp.
    rewrite (wf_batch_len _ Hw'), (frame_batch _ _ F) in Hp. exact Hp. }
  destruct (floor_log s0 q i (returned s0 cs) Hn' Hfl') as [L1 L2].
  { intros h Hh. destruct (returned_iter s0 cs h Hw (fresh_pending _ Hf) Hc Hh) as [A B].
    unfold awf, twf in A. unfold a_data. rewrite A. unfold a_shape in B. now rewrite B. }
  eapply Qclt_le_trans; [exact Hq|]. rewrite <- L1.
  replace (length (past (log0 s0 i (returned s0 cs)))) with (length (hs_of s0 (log0 s0 i (returned s0 cs)))).
  - apply total_floor. exact L2.
  - unfold hs_of, effective. now rewrite !map_length.
Qed.
