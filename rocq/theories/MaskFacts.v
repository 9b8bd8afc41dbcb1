(** * Reset and masking in any arithmetic whose products with one and zero behave: the laws used are
    hypotheses of the theorems. Facts for PropsFloat2.v. *)
From Verif Require Import Base PyTree Tensor Num Utils States Controller Viewer Wf Spec History ElementSpec.
From Verif Require Import BaseFacts PyTreeFacts TensorFacts ControllerFacts IterateFacts ResetFacts
  HistoryFacts AgreeFacts SpecFacts GravesFacts ExactFacts ExactFacts2 ViewerFacts.
Open Scope nat_scope.

Section Any.
  Context {N : numsys}.
  Notation st := (state N).

Theorem reset_any (s s' : st) :
  wf s -> reset_batches s = Ok s' ->
  (epsilon s' = epsilon s /\ depression_constant s' = depression_constant s /\
   error_mode s' = error_mode s /\ defaults s' = defaults s /\ updates s' = updates s) /\
  (sig (probabilities s') = sig (probabilities s) /\ sig (residuals s') = sig (residuals s) /\
   sig (iterations s') = sig (iterations s) /\ dkeys (accumulators s') = dkeys (accumulators s)) /\
  forall i halted, nth_error (data (halted_batches s)) i = Some halted ->
    (nth_error (a_data (probabilities s')) i =
       option_map (fun v => v_mul N v (if halted then v_zero N else v_one N)) (nth_error (a_data (probabilities s)) i)) /\
    (nth_error (a_data (residuals s')) i =
       option_map (fun v => v_mul N v (if halted then v_zero N else v_one N)) (nth_error (a_data (residuals s)) i)) /\
    (nth_error (a_data (iterations s')) i =
       option_map (fun v => v_mul N v (if halted then v_zero N else v_one N)) (nth_error (a_data (iterations s)) i)) /\
    forall k t, dget k (accumulators s) = Some t ->
      exists d t', dget k (defaults s) = Some d /\ dget k (accumulators s') = Some t' /\ alike t' t /\
        forall l a dl a', nth_error (leaves t) l = Some a -> nth_error (leaves d) l = Some dl ->
          nth_error (leaves t') l = Some a' ->
          forall R, a_shape a = batch_shape s ++ R ->
          forall j, j / size R = i ->
            nth_error (a_data a') j = nth_error (a_data (if halted then dl else a)) j.
Proof.
  intros Hw H. destruct (reset_effect s s' Hw H) as [C Hw'].
  split; [repeat split; apply C|]. split; [repeat split; apply C|].
  intros i halted Hh. apply halted_get_inv in Hh as (p & Hp & Eh). subst halted.
  split; [|split; [|split]].
  - rewrite (rs_p _ _ C i p Hp), Hp. unfold kept. destruct (halted_at s p); reflexivity.
  - destruct (batch_get s _ i p Hw (wf_r _ Hw) (wf_r_shape _ Hw) Hp) as [r Hr].
    rewrite (rs_r _ _ C i p r Hp Hr), Hr. unfold kept. destruct (halted_at s p); reflexivity.
  - destruct (batch_get s _ i p Hw (wf_i _ Hw) (wf_i_shape _ Hw) Hp) as [n Hn].
    rewrite (rs_i _ _ C i p n Hp Hn), Hn. unfold kept. destruct (halted_at s p); reflexivity.
  - intros k t Ht. destruct (default_of s k t Hw Ht) as (d & Hd & Hal & Hawd).
    destruct (rs_acc _ _ C k t d Ht Hd) as (t' & Ht' & Hal' & Heff).
    exists d, t'. repeat split; auto; try apply Hal'.
    intros l a dl a' Ha Hdl Ha' R HR j Hj.
    destruct (Forall_nth _ _ _ _ (wf_acc _ Hw _ _ Ht) Ha) as (Haw & _).
    destruct (Forall_nth _ _ _ _ (wf_acc _ Hw' _ _ Ht') Ha') as (Haw' & _).
    pose proof (Forall_nth _ _ _ _ Hawd Hdl) as Hawdl.
    pose proof (alike_nth _ _ _ _ _ Hal Ha Hdl) as S1. pose proof (alike_nth _ _ _ _ _ Hal' Ha' Ha) as S2.
    injection S1 as S1 _. injection S2 as S2 _.
    assert (L1 : length (a_data dl) = length (a_data a)).
    { unfold awf, twf, a_data, a_shape in *. now rewrite Hawdl, Haw, S1. }
    assert (L2 : length (a_data a') = length (a_data a)).
    { unfold awf, twf, a_data, a_shape in *. now rewrite Haw', Haw, S2. }
    destruct (nth_error (a_data a) j) as [av|] eqn:Eav.
    + destruct (nth_error_same_length _ (a_data dl) _ _ (eq_sym L1) Eav) as [dv Edv].
      rewrite (Heff l a dl a' Ha Hdl Ha' R HR j av dv p Eav Edv ltac:(now rewrite Hj)).
      destruct (halted_at s p); congruence.
    + apply nth_error_None in Eav. transitivity (@None (val N)).
      * apply nth_error_None. now rewrite L2.
      * symmetry. destruct (halted_at s p); apply nth_error_None; [now rewrite L1|assumption].
Qed.

Theorem reset_idempotent_any (s s' : st) :
  (forall v : val N, v_mul N v (v_one N) = v) ->
  (forall v : val N, v_ltb N (threshold s) (v_mul N v (v_zero N)) = false) ->
  wf s -> reset_batches s = Ok s' -> reset_batches s' = Ok s'.
Proof.
  intros L1 L0 Hw H. destruct (reset_effect s s' Hw H) as [C Hw'].
  pose proof (proj1 (reset_ok_iff s Hw) (ex_intro _ _ H)) as [Hid Hrs].
  pose proof (rs_p_sig _ _ C) as Eb. injection Eb as Eb _. fold (batch_shape s') (batch_shape s) in Eb.
  assert (Hex : exists s'', reset_batches s' = Ok s'').
  { apply reset_ok_iff; [assumption|]. split.
    - intros k u Hu. rewrite (rs_upd _ _ C) in Hu. eauto.
    - intros k t' Ht'. rewrite Eb.
      assert (Hin : In k (dkeys (accumulators s))) by (rewrite <- (rs_keys _ _ C); apply dget_keys; eauto).
      apply dget_keys in Hin as [t Ht]. destruct (default_of s k t Hw Ht) as (d & Hd & _ & _).
      destruct (rs_acc _ _ C k t d Ht Hd) as (x & Hx & Hal & _).
      assert (x = t') by congruence. subst x.
      destruct (Hrs k t Ht) as [Hb|[[a Ha]|Hl]]; [now left| |].
      + right; left. eapply structure_leaf; [apply Hal|exact Ha].
      + right; right. apply length_zero_iff_nil. rewrite (alike_len _ _ Hal), Hl. reflexivity. }
  destruct Hex as [s'' H']. rewrite H'. f_equal.
  destruct (reset_effect s' s'' Hw' H') as [C' Hw''].
  assert (Hnh : forall i p, nth_error (a_data (probabilities s')) i = Some p -> halted_at s' p = false).
  { intros i p Hp. destruct (reset_inv s s' i p Hw H Hp) as (q & Hq & ->). unfold kept.
    destruct (halted_at s q) eqn:E; unfold halted_at, threshold in *; rewrite (rs_eps _ _ C); cbn [negb v_of_bool].
    - apply L0.
    - rewrite L1. exact E. }
  assert (Hk : forall i p v, nth_error (a_data (probabilities s')) i = Some p -> kept s' p v = v).
  { intros i p v Hp. unfold kept. rewrite (Hnh i p Hp). cbn [negb v_of_bool]. apply L1. }
  assert (Earr : forall (f : st -> array N),
     sig (f s'') = sig (f s') -> awf (f s'') -> awf (f s') -> a_shape (f s') = batch_shape s' ->
     (forall i p v, nth_error (a_data (probabilities s')) i = Some p -> nth_error (a_data (f s')) i = Some v ->
        nth_error (a_data (f s'')) i = Some (kept s' p v)) -> f s'' = f s').
  { intros f Hsig Ha'' Ha' Hsh Hel. symmetry. apply array_ext; auto. intros i x Hx.
    assert (Hi : exists p, nth_error (a_data (probabilities s')) i = Some p).
    { apply nth_error_lt. apply nth_error_some_lt in Hx. rewrite (wf_batch_len _ Hw').
      unfold awf, twf, a_data in *. rewrite Ha' in Hx. unfold a_shape in Hsh. now rewrite Hsh in Hx. }
    destruct Hi as [p Hp]. rewrite (Hel i p x Hp Hx). f_equal. eapply Hk; eauto. }
  destruct s'' as [e2 i2 r2 p2 d2 a2 u2 c2 m2], s' as [e1 i1 r1 p1 d1 a1 u1 c1 m1].
  assert (E1 : e2 = e1) by apply (rs_eps _ _ C'). assert (E2 : c2 = c1) by apply (rs_dep _ _ C').
  assert (E3 : m2 = m1) by apply (rs_mode _ _ C'). assert (E4 : d2 = d1) by apply (rs_def _ _ C').
  assert (E5 : u2 = u1) by apply (rs_upd _ _ C').
  assert (E6 : p2 = p1).
  { apply (Earr probabilities); auto; try apply Hw'; try apply Hw''; try apply (rs_p_sig _ _ C').
    intros i p v Hp Hv. assert (v = p) by (cbn in Hp, Hv; congruence). subst v. apply (rs_p _ _ C' i p Hp). }
  assert (E7 : r2 = r1).
  { apply (Earr residuals); auto; try apply Hw'; try apply Hw''; try apply (rs_r_sig _ _ C').
    intros i p v Hp Hv. apply (rs_r _ _ C' i p v Hp Hv). }
  assert (E8 : i2 = i1).
  { apply (Earr iterations); auto; try apply Hw'; try apply Hw''; try apply (rs_i_sig _ _ C').
    intros i p v Hp Hv. apply (rs_i _ _ C' i p v Hp Hv). }
  assert (E9 : a2 = a1).
  { apply dict_ext.
    - apply (rs_keys _ _ C').
    - apply (wf_nodup_a _ Hw'').
    - intros k. pose proof (rs_keys _ _ C') as Ek. cbn [accumulators] in Ek.
      destruct (dget k a1) as [t|] eqn:Et.
      + set (s1 := mkState e1 i1 r1 p1 d1 a1 u1 c1 m1) in *.
        destruct (default_of s1 k t Hw' Et) as (d & Hd & Hald & Hawd).
        destruct (rs_acc _ _ C' k t d Et Hd) as (t' & Ht' & Hal & Heff). cbn [accumulators] in Ht'.
        rewrite Ht'. f_equal. apply alike_ext; [assumption|]. intros l a' a Ha' Ha.
        destruct (nth_error_same_length _ (leaves d) _ _ (alike_len _ _ Hald) Ha) as [dl Hdl].
        destruct (Forall_nth _ _ _ _ (wf_acc _ Hw' _ _ Et) Ha) as (Haw & _ & R & HR).
        assert (Ht'2 : dget k (accumulators (mkState e2 i2 r2 p2 d2 a2 u2 c2 m2)) = Some t') by exact Ht'.
        destruct (Forall_nth _ _ _ _ (wf_acc _ Hw'' _ _ Ht'2) Ha') as (Haw' & _).
        pose proof (Forall_nth _ _ _ _ Hawd Hdl) as Hawdl.
        pose proof (alike_nth _ _ _ _ _ Hald Ha Hdl) as S1. injection S1 as S1 _.
        assert (L1' : length (a_data dl) = length (a_data a)).
        { unfold awf, twf, a_data, a_shape in *. now rewrite Hawdl, Haw, S1. }
        symmetry. apply array_ext; auto.
        * symmetry. eapply alike_nth; eauto.
        * intros j x Hx.
          destruct (nth_error_same_length _ (a_data dl) _ _ (eq_sym L1') Hx) as [dv Edv].
          assert (Hib : exists p, nth_error (a_data (probabilities s1)) (j / size R) = Some p).
          { apply nth_error_lt. rewrite (wf_batch_len s1 Hw').
            unfold awf, twf in Haw. fold (a_shape a) in Haw. rewrite HR in Haw.
            now destruct (size_pos_nth _ _ _ _ _ Haw Hx). }
          destruct Hib as [p Hp].
          rewrite (Heff l a dl a' Ha Hdl Ha' R HR j x dv p Hx Edv Hp).
          now rewrite (Hnh _ p Hp).
      + apply dget_none. rewrite Ek. now apply dget_none. }
  now subst.
Qed.

Definition masks_multiply : Prop := forall b1 b2 (v : val N),
    v_mul N (v_of_bool b2) (v_mul N (v_of_bool b1) v) = v_mul N (v_of_bool (b1 && b2)) v.
Lemma mask_fun_mask_fun_any (B : list nat) m1 m2 (a : array N) :
  masks_multiply -> (exists R, a_shape a = B ++ R) -> awf a -> length m1 = size B -> length m2 = size B ->
  mask_fun B m2 (mask_fun B m1 a) = mask_fun B (map2 andb m1 m2) a.
Proof.
  intros Law [R HR] A H1 H2. unfold mask_fun at 1 3. f_equal. f_equal.
  change (a_shape (mask_fun B m1 a)) with (a_shape a).
  unfold mask_fun, a_data at 1. cbn [a_ten data].
  apply nth_error_ext. intros j. rewrite !nth_error_map2.
  rewrite HR, skipn_app, skipn_all, Nat.sub_diag. cbn [skipn app].
  assert (L : length (map2 andb m1 m2) = size B) by (rewrite map2_length; lia).
  destruct (nth_error (a_data a) j) as [v|] eqn:Ev.
  - unfold awf, twf in A. fold (a_data a) (a_shape a) in A. rewrite HR in A.
    destruct (size_pos_nth B R _ _ _ A Ev) as [Pos Lt]. rewrite !nth_error_expand by exact Pos.
    rewrite nth_error_map2.
    destruct (nth_error_lt m1 (j / size R)) as [b1 ->]; [lia|].
    destruct (nth_error_lt m2 (j / size R)) as [b2 ->]; [lia|].
    f_equal. apply Law.
  - repeat (destruct (nth_error _ j); auto).
Qed.

Theorem masks_compose_any (s : st) (m1 m2 : tensor bool) :
  masks_multiply -> wf s -> twf m1 -> twf m2 -> shape m1 = batch_shape s -> shape m2 = batch_shape s ->
  (x <- mask_data s DBool m1 ;; mask_data x DBool m2) =
  mask_data s DBool (mkT (shape m1) (map2 andb (data m1) (data m2))).
Proof.
  intros Law W W1 W2 H1 H2.
  assert (L1 : length (data m1) = size (batch_shape s)) by (rewrite <- H1; exact W1).
  assert (L2 : length (data m2) = size (batch_shape s)) by (rewrite <- H2; exact W2).
  assert (W12 : twf (mkT (shape m1) (map2 andb (data m1) (data m2)))).
  { unfold twf. cbn [shape data]. rewrite map2_length, H1. lia. }
  rewrite (mask_ok s m1 W W1 H1), (mask_ok s _ W W12 H1). cbn [bind].
  assert (W' : wf (mapped (mask_fun (batch_shape s) (data m1)) s)).
  { apply mapped_wf; [exact W|]. intros x Hx. destruct (wf_tensor s x W Hx) as [A [R HR]].
    split; [reflexivity|]. exact (mask_fun_awf _ _ x R A HR L1). }
  rewrite (mask_ok _ m2 W' W2 H2). change (batch_shape (mapped (mask_fun (batch_shape s) (data m1)) s)) with (batch_shape s).
  rewrite mapped_mapped. f_equal. apply mapped_ext. intros x Hx. destruct (wf_tensor s x W Hx) as [A R].
  now apply mask_fun_mask_fun_any.
Qed.
End Any.
