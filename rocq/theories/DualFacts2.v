(** * Proofs: programs of moved controllers; tangents of the explicit formulas (for PropsDual.v) *)
From Coq Require Import QArith Qcanon Lia.
From Verif Require Import Base PyTree Tensor Num Utils States Controller Layers Wf Spec History ElementSpec ScalarSpec StateSpec TraceSpec Jit JitSpec SlopeSpec Dual DualSpec.
From Verif Require Import BaseFacts PyTreeFacts QcFacts ControllerFacts IterateFacts HistoryFacts AgreeFacts GravesFacts ExactFacts ScalarFacts ScriptFacts TraceFacts TraceFacts2 MoveFacts JitFacts IeeeLoopFacts2 DualFacts.
From Verif Require Import PropsController PropsScalar.
Close Scope Qc_scope. Close Scope Q_scope. Close Scope R_scope. Close Scope Z_scope. Open Scope string_scope. Open Scope list_scope. Open Scope nat_scope.

(** ** Moved controllers *)
Section Moved.
  Context {N M : numsys} (f : val N -> val M) (g : scl N -> scl M).
  Lemma like_move_array (a : array N) : like_array a (move_array f a).
  Proof. split; reflexivity. Qed.
  Lemma like_move_tree (t : tree (array N)) : like_tree t (move_tree f t).
  Proof.
    split; [now rewrite structure_move|]. rewrite leaves_move. induction (leaves t); cbn; constructor; auto using like_move_array.
  Qed.
  Lemma like_move_dict (d : dict (tree (array N))) : like_dict d (move_dict f d).
  Proof. unfold like_dict, move_dict. induction d; cbn; constructor; auto. split; [reflexivity|apply like_move_tree]. Qed.
  Lemma like_move (s : state N) : like s (move f g s).
  Proof. constructor; cbn; auto using like_move_array, like_move_dict. Qed.
  Lemma like_move_call (c : call N) : like_call c (move_call f c).
  Proof. destruct c; cbn; auto using like_move_array, like_move_tree. Qed.
  Lemma run_like cs cs' : Forall2 like_call cs cs' -> forall (s : state N) (s' : state M), like s s' -> like (run s cs) (run s' cs').
  Proof.
    induction 1 as [|c c' cs cs' Hc C IH]; intros s s' H; [exact H|]. rewrite !run_cons. apply IH.
    pose proof (rr_call _ _ _ _ H Hc) as Q. unfold after. destruct (apply_call s c), (apply_call s' c'); cbn in Q; try contradiction; auto.
  Qed.
  Lemma calls_like (cs : list (call N)) : Forall2 like_call cs (map (move_call f) cs).
  Proof. induction cs; cbn; constructor; auto using like_move_call. Qed.
  Lemma returned_moved (cs : list (call N)) : forall (s : state N) (s' : state M), like s s' ->
    returned s' (map (move_call f) cs) = map (move_call f) (returned s cs).
  Proof.
    induction cs as [|c cs IH]; intros s s' H; [reflexivity|]. cbn [map returned].
    pose proof (rr_call _ _ _ _ H (like_move_call c)) as Q.
    destruct (apply_call s c), (apply_call s' (move_call f c)); cbn in Q; try contradiction; cbn [map]; [f_equal|]; auto.
  Qed.
  Lemma move_call_wf (c : call N) : call_wf c -> call_wf (move_call f c).
  Proof. destruct c; cbn; auto using awf_move, awf_leaves_move. Qed.
  Lemma move_calls_wf (cs : list (call N)) : Forall call_wf cs -> Forall call_wf (map (move_call f) cs).
  Proof. intros H. apply Forall_map. revert H. apply Forall_impl. apply move_call_wf. Qed.
  Lemma move_fresh (s : state N) : f (v_zero N) = v_zero M -> fresh s -> fresh (move f g s).
  Proof.
    intros Z (P & R & I & A & U).
    assert (X : forall l : list (val N), Forall (eq (v_zero N)) l -> Forall (eq (v_zero M)) (map f l)).
    { intros l H. apply Forall_map. revert H. apply Forall_impl. intros x <-. now symmetry. }
    repeat split; cbn; auto.
    - intros k. rewrite !dget_move, A. reflexivity.
    - intros k u H. apply dget_move_inv in H as (t & H & ->). rewrite (U _ _ H). reflexivity.
  Qed.
  Definition move_line (e : option (val N * dict (tree (array N)))) : option (val M * dict (tree (array M))) :=
    option_map (fun e => (f (fst e), move_dict f (snd e))) e.
  Lemma script_moved i (cs : list (call N)) : forall g1,
    fold_left (script_step i) (map (move_call f) cs) (mkScript (move_dict f (waiting g1)) (map move_line (lines g1))) =
    (let g2 := fold_left (script_step i) cs g1 in mkScript (move_dict f (waiting g2)) (map move_line (lines g2))).
  Proof.
    induction cs as [|c cs IH]; intros g1; [reflexivity|]. cbn [map fold_left]. rewrite <- IH. f_equal.
    destruct c as [name item|h|]; cbn [move_call script_step waiting lines]; [reflexivity| |now rewrite map_app].
    change (a_data (move_array f h)) with (map f (a_data h)). rewrite nth_error_map. destruct (nth_error (a_data h) i); cbn; [now rewrite map_app|reflexivity].
  Qed.
  Lemma lines_moved i (cs : list (call N)) : lines (script_of i (map (move_call f) cs)) = map move_line (lines (script_of i cs)).
  Proof. unfold script_of. pose proof (script_moved i cs (mkScript [] [])) as H. cbn in H. rewrite H. reflexivity. Qed.
  Lemma stats_program_moved i (cs : list (call N)) : stats_program i (map (move_call f) cs) = map (option_map f) (stats_program i cs).
  Proof. unfold stats_program. rewrite lines_moved, !map_map. apply map_ext. intros [[v u]|]; reflexivity. Qed.
  Lemma update_at_moved k l j (d : dict (tree (array N))) : update_at k l j (move_dict f d) = option_map f (update_at k l j d).
  Proof.
    unfold update_at. rewrite dget_move. destruct (dget k d) as [t|]; [|reflexivity]. cbn [option_map]. rewrite leaves_move, nth_error_map.
    destruct (nth_error (leaves t) l) as [a|]; [|reflexivity]. cbn [option_map]. change (a_data (move_array f a)) with (map f (a_data a)). apply nth_error_map.
  Qed.
  Definition move_pair (vu : val N * val N) : val M * val M := (f (fst vu), f (snd vu)).
  Lemma value_program_moved i k l j (cs : list (call N)) prog : value_program i k l j cs prog ->
    value_program i k l j (map (move_call f) cs) (map (option_map move_pair) prog).
  Proof.
    unfold value_program. rewrite lines_moved. generalize (lines (script_of i cs)). clear. intros ls. revert prog.
    induction ls as [|e ls IH]; intros [|p prog]; cbn [map]; try discriminate; auto. intros [= H1 H2]. f_equal; [|now apply IH].
    destruct e as [[v u]|], p as [[v' u']|]; cbn [option_map fst snd move_line move_pair] in *; try discriminate; [|reflexivity]. rewrite update_at_moved. injection H1 as -> ->. reflexivity.
  Qed.
  Lemma value_program_lift i k l j (cs : list (call N)) prog' : value_program i k l j (map (move_call f) cs) prog' ->
    exists prog, value_program i k l j cs prog /\ prog' = map (option_map move_pair) prog.
  Proof.
    unfold value_program. rewrite lines_moved. generalize (lines (script_of i cs)). clear. intros ls. revert prog'.
    induction ls as [|e ls IH]; intros [|p prog]; cbn [map]; try discriminate; [exists []; auto|]. intros [= H1 H2].
    destruct (IH _ H2) as (q & Q1 & ->). destruct e as [[v u]|], p as [[v' u']|]; cbn [option_map fst snd move_line] in H1; try discriminate.
    - rewrite update_at_moved in H1. destruct (update_at k l j u) as [x|] eqn:E; cbn in H1; [|discriminate]. injection H1 as <- <-.
      exists (Some (v, x) :: q). cbn [map option_map fst snd]. rewrite E, Q1. split; reflexivity.
    - exists (None :: q). cbn [map option_map]. rewrite Q1. split; reflexivity.
  Qed.
  (** like controllers have the same entries *)
  Lemma like_update_at k l j (d : dict (tree (array N))) (d' : dict (tree (array M))) x : like_dict d d' ->
    (forall t, dget k d = Some t -> Forall awf (leaves t)) -> (forall t, dget k d' = Some t -> Forall awf (leaves t)) ->
    update_at k l j d = Some x -> exists y, update_at k l j d' = Some y.
  Proof.
    intros H W W'. unfold update_at. pose proof (ldict_get like_tree k d d' H) as G. destruct (dget k d) as [t|], (dget k d') as [t'|]; try contradiction; [|discriminate].
    destruct G as [_ G]. specialize (W _ eq_refl). specialize (W' _ eq_refl). revert l. induction G as [|a b la lb Hab G IH]; intros [|l]; cbn; try discriminate.
    - intros E. apply nth_error_lt. inversion_clear W as [|? ? Wa _]. inversion_clear W' as [|? ? Wb _]. destruct Hab as [Hs _].
      assert (E' : j < length (a_data a)) by (apply nth_error_Some; congruence). unfold awf, twf in Wa, Wb. unfold a_shape in Hs. rewrite Hs in Wa. unfold a_data in *. lia.
    - inversion_clear W. inversion_clear W'. auto.
  Qed.
  Lemma like_nth_error (a : array N) (b : array M) j x : like_array a b -> awf a -> awf b -> nth_error (a_data a) j = Some x ->
    exists y, nth_error (a_data b) j = Some y.
  Proof.
    intros [Hs _] Wa Wb E. apply nth_error_lt. assert (E' : j < length (a_data a)) by (apply nth_error_Some; congruence).
    unfold awf, twf in Wa, Wb. unfold a_shape in Hs. rewrite Hs in Wa. unfold a_data in *. lia.
  Qed.
End Moved.

Section Twice.
  Context {N M M' : numsys} (f : val N -> val M) (g : scl N -> scl M) (f' : val N -> val M') (g' : scl N -> scl M').
  Lemma like_trees (t : tree (array N)) : like_tree (move_tree f t) (move_tree f' t).
  Proof.
    split; [now rewrite !structure_move|]. rewrite !leaves_move. induction (leaves t); cbn; constructor; auto. split; reflexivity.
  Qed.
  Lemma like_dicts (d : dict (tree (array N))) : like_dict (move_dict f d) (move_dict f' d).
  Proof. unfold like_dict, move_dict. induction d; cbn; constructor; auto. split; [reflexivity|apply like_trees]. Qed.
  Lemma like_states (s : state N) : like (move f g s) (move f' g' s).
  Proof. constructor; cbn; auto using like_dicts; split; reflexivity. Qed.
  Lemma like_histories (cs : list (call N)) : Forall2 like_call (map (move_call f) cs) (map (move_call f') cs).
  Proof. induction cs as [|c cs IH]; cbn; constructor; auto. destruct c; cbn; auto using like_trees. split; reflexivity. Qed.
End Twice.
(** an entry of a tree has its counterpart in a tree alike *)
Lemma alike_entry {N} (t t' : tree (array N)) l a j x : alike t t' -> Forall awf (leaves t) -> Forall awf (leaves t') ->
  nth_error (leaves t) l = Some a -> nth_error (a_data a) j = Some x ->
  exists a' x', nth_error (leaves t') l = Some a' /\ nth_error (a_data a') j = Some x' /\ a_shape a' = a_shape a.
Proof.
  intros [_ S] W W' Ha Hx. assert (E : nth_error (map sig (leaves t')) l = Some (sig a)) by (rewrite <- S; now apply map_nth_error).
  rewrite nth_error_map in E. destruct (nth_error (leaves t') l) as [a'|] eqn:Ha'; [|discriminate]. cbn in E. injection E as E1 E2.
  assert (Wa : awf a) by (rewrite Forall_forall in W; apply W; now apply nth_error_In in Ha).
  assert (Wa' : awf a') by (rewrite Forall_forall in W'; apply W'; now apply nth_error_In in Ha').
  destruct (like_nth_error a a' j x) as [y Hy]; auto. { split; [now symmetry|now symmetry]. } eauto 6.
Qed.

(** ** From controllers of curves to curves of scalar programs *)
Section Family.
  Context (s : state CurveNum) (cs : list (call CurveNum)) (i : nat).
  Notation sD := (dual_state s). Notation csD := (map dual_call cs).
  Notation eps := (epsilon s). Notation depc := (depression_constant s : curve).
  Notation thrc := (s_one_sub CurveNum eps : curve).
  Context (E0 : (0 < fst (snd (eps : curve)))%Qc) (E1 : (fst (snd (eps : curve)) < 1)%Qc) (D0 : (0 <= fst (snd depc))%Qc).
  Context (W : wf s) (Fr : fresh s) (Ss : smooth_state s) (Cw : Forall call_wf cs) (Sc : Forall smooth_call cs).
  Context (Hi : i < size (batch_shape s)) (Oc : off_corners s cs i).

  Lemma wf_dual : wf sD. Proof. now apply move_wf. Qed.
  Lemma fresh_dual : fresh sD. Proof. now apply move_fresh. Qed.
  Lemma wf_at t : wf (state_at t s). Proof. now apply move_wf. Qed.
  Lemma fresh_at t : fresh (state_at t s). Proof. now apply move_fresh. Qed.
  Lemma thr_dual : v_of_scl DualNum (s_one_sub DualNum (epsilon sD)) = snd thrc. Proof. reflexivity. Qed.
  Lemma thr_at t : v_of_scl QcNum (s_one_sub QcNum (epsilon (state_at t s))) = fst thrc t. Proof. reflexivity. Qed.
  Lemma sm_thr : sm thrc.
  Proof.
    destruct Ss as (X & _). apply smooth_sm in X. unfold sm in *. cbn [fst snd s_one_sub CurveNum DualNum].
    generalize (tangent_sub _ _ _ _ (tangent_const 1%Qc) X). cbn [v_sub DualNum fst snd].
    replace (0 - snd (snd (eps : curve)))%Qc with (- snd (snd (eps : curve)))%Qc by qring. auto.
  Qed.
  Lemma sm_dep : sm depc. Proof. apply smooth_sm. apply Ss. Qed.
  Lemma thr_lt : (fst (snd thrc) < 1)%Qc. Proof. cbn. revert E0. clear. qc. Qed.
  Lemma thr_pos : (0 < fst (snd thrc))%Qc. Proof. cbn. revert E1. clear. qc. Qed.

  Lemma off_corners_prefix a b : cs = a ++ b -> off_corners s a i.
  Proof. intros -> before h after -> . specialize (Oc before h (after ++ b)). apply Oc. now rewrite <- app_assoc. Qed.
  Notation run_d cs' := (run sD (map dual_call cs')).
  Notation prog cs' := (stats_program i (returned s cs')).
  Lemma dual_program cs' : stats_program i (returned sD (map dual_call cs')) = map (option_map snd) (prog cs').
  Proof. unfold dual_call. rewrite (returned_moved (N := CurveNum) (M := DualNum) snd _ s sD (like_move _ _ s)). apply (stats_program_moved (N := CurveNum) (M := DualNum)). Qed.
  Lemma at_program t cs' : stats_program i (returned (state_at t s) (map (call_at t) cs')) = map (option_map (fun v : curve => fst v t)) (prog cs').
  Proof. unfold call_at. rewrite (returned_moved (N := CurveNum) (M := QcNum) (at_time t) _ s (state_at t s) (like_move _ _ s)). apply (stats_program_moved (N := CurveNum) (M := QcNum)). Qed.
  Notation now_d cs' := (stats_run (N := DualNum) (snd thrc) (snd depc) stats0 (map (option_map snd) (prog cs'))).

  Lemma family_clear a : forall b, cs = a ++ b -> clear thrc depc (stats0 (N := DualNum)) (prog a).
  Proof.
    induction a as [|c a IH] using rev_ind; intros b Eb; [exact I|]. rewrite <- app_assoc in Eb. specialize (IH _ Eb).
    rewrite returned_app. cbn [returned]. destruct (apply_call (run s a) c) as [s2|] eqn:R; [|now rewrite app_nil_r].
    assert (Wa : Forall call_wf a) by (rewrite Eb in Cw; now apply Forall_app in Cw).
    assert (Sa : smooth_call c) by (rewrite Eb in Sc; apply Forall_app in Sc as [_ X]; now inversion_clear X).
    unfold stats_program. rewrite script_snoc. fold (stats_program i (returned s a)) in *.
    destruct c as [name item|h|]; cbn [script_step lines]; [exact IH| |].
    - destruct (nth_error (a_data h) i) as [v|] eqn:Hv; cbn [lines]; [|exact IH].
      rewrite map_app. apply clear_app. split; [exact IH|]. cbn [map option_map fst clear]. split; [|exact I]. split.
      + apply smooth_sm. cbn in Sa. unfold smooth_array in Sa. rewrite Forall_forall in Sa. apply Sa. now apply nth_error_In in Hv.
      + intros Ov. change (list (option curve)) with (list (option (val CurveNum))) in *. fold (stats_program i (returned s a)) in Ov |- *.
        assert (Hw : wf (run_d a)).
        { apply (fo_wf _ _ _ (run_follows sD (map dual_call a) wf_dual fresh_dual (move_calls_wf (N := CurveNum) (M := DualNum) snd _ Wa))). }
        assert (Fra : same_frame sD (run_d a)).
        { apply (fo_frame _ _ _ (run_follows sD (map dual_call a) wf_dual fresh_dual (move_calls_wf (N := CurveNum) (M := DualNum) snd _ Wa))). }
        assert (Hp : exists p, nth_error (a_data (probabilities (run_d a))) i = Some p).
        { apply nth_error_lt. rewrite (wf_batch_len _ Hw). unfold batch_shape. pose proof (sf_p _ _ Fra) as X. injection X as X _. rewrite X. exact Hi. }
        destruct Hp as [p Hp].
        pose proof (fo_p _ _ _ (run_follows sD (map dual_call a) wf_dual fresh_dual (move_calls_wf (N := CurveNum) (M := DualNum) snd _ Wa)) i p Hp) as Ep.
        pose proof (C64_halted_batches sD (map dual_call a) i wf_dual fresh_dual (move_calls_wf (N := CurveNum) (M := DualNum) snd _ Wa) Hi) as Hh.
        rewrite dual_program in Hh. rewrite dual_program in Ep.
        assert (Ok2 : exists s3, apply_call (run_d a) (dual_call (CIter h)) = Ok s3).
        { pose proof (rr_call _ _ _ _ (run_like _ _ (calls_like (N := CurveNum) (M := DualNum) snd a) s sD (like_move _ _ s)) (like_move_call (N := CurveNum) (M := DualNum) snd (CIter h))) as Q.
          rewrite R in Q. change (rr like (Ok s2) (apply_call (run_d a) (dual_call (CIter h)))) in Q. destruct (apply_call (run_d a) (dual_call (CIter h))); [eauto|contradiction]. }
        destruct (Oc a h b Eb Ok2 p v) as [C1 C2]; [exact (eq_trans Hh (f_equal Some Ov))|exact Hp|exact Hv|]. split; [exact C1|].
        intros X. apply C2. rewrite (sf_eps _ _ Fra), (sf_dep _ _ Fra). rewrite Ep. exact X.
    - rewrite map_app. apply clear_app. split; [exact IH|]. cbn. auto.
  Qed.
  Lemma program_clear : clear thrc depc (stats0 (N := DualNum)) (prog cs).
  Proof. apply (family_clear cs []). now rewrite app_nil_r. Qed.
  Lemma family_stats : follows (fun t => stats_run (N := QcNum) (fst thrc t) (fst depc t) stats0 (map (option_map (fun v : curve => fst v t)) (prog cs))) (now_d cs) /\
    settled thrc (now_d cs).
  Proof.
    apply (follows_run thrc depc sm_thr sm_dep thr_lt thr_pos D0 (prog cs) (fun _ => stats0)); [apply follows_start|apply settled_start; exact thr_pos|exact program_clear].
  Qed.

  Notation Q t := (run (state_at t s) (map (call_at t) cs)).
  Notation D := (run sD csD).
  Lemma follows_D : ScalarFacts.follows sD D (returned sD csD).
  Proof. exact (run_follows sD csD wf_dual fresh_dual (move_calls_wf (N := CurveNum) (M := DualNum) snd _ Cw)). Qed.
  Lemma follows_Q t : ScalarFacts.follows (state_at t s) (Q t) (returned (state_at t s) (map (call_at t) cs)).
  Proof. exact (run_follows _ _ (wf_at t) (fresh_at t) (move_calls_wf (N := CurveNum) (M := QcNum) (at_time t) _ Cw)). Qed.
  Lemma like_DQ t : like D (Q t).
  Proof. apply run_like; [apply like_histories|apply like_states]. Qed.
  Definition number (o : option Qc) : Qc := match o with Some x => x | None => 0%Qc end.

  Lemma family_halted : near (fun t => halted (Q t) i = halted D i).
  Proof.
    destruct family_stats as [F St]. generalize (follows_over thrc sm_thr _ _ F St). apply near_mp. intros t Ht.
    rewrite (C64_halted_batches sD csD i wf_dual fresh_dual (move_calls_wf (N := CurveNum) (M := DualNum) snd _ Cw) Hi).
    rewrite (C64_halted_batches (state_at t s) (map (call_at t) cs) i (wf_at t) (fresh_at t) (move_calls_wf (N := CurveNum) (M := QcNum) (at_time t) _ Cw) Hi).
    f_equal. rewrite dual_program, at_program. exact Ht.
  Qed.
  Lemma family_statistic (get : forall N, state N -> array N) (part : forall N, stats N -> val N) :
    (forall t, like_array (get DualNum D) (get QcNum (Q t))) -> awf (get DualNum D) -> (forall t, awf (get QcNum (Q t))) ->
    (forall p, nth_error (a_data (get DualNum D)) i = Some p -> p = part DualNum (now_d cs)) ->
    (forall t p, nth_error (a_data (get QcNum (Q t))) i = Some p ->
       p = part QcNum (stats_run (N := QcNum) (fst thrc t) (fst depc t) stats0 (map (option_map (fun v : curve => fst v t)) (prog cs)))) ->
    tangent (fun t => part QcNum (stats_run (N := QcNum) (fst thrc t) (fst depc t) stats0 (map (option_map (fun v : curve => fst v t)) (prog cs)))) (part DualNum (now_d cs)) ->
    forall p : dual, nth_error (a_data (get DualNum D)) i = Some p ->
    exists P, (forall t, nth_error (a_data (get QcNum (Q t))) i = Some (P t)) /\ derivative P (fst p) (snd p).
  Proof.
    intros L W1 W2 H1 H2 Tg p Hp. exists (fun t => number (nth_error (a_data (get QcNum (Q t))) i)).
    assert (X : forall t, nth_error (a_data (get QcNum (Q t))) i = Some (number (nth_error (a_data (get QcNum (Q t))) i))).
    { intros t. destruct (like_nth_error (N := DualNum) (M := QcNum) _ _ i p (L t) W1 (W2 t) Hp) as [y Hy]. now rewrite Hy. }
    split; [exact X|]. apply tangent_derivative. rewrite (H1 _ Hp). refine (tangent_ext _ _ _ _ Tg). apply near_all. intros t.
    symmetry. exact (H2 t _ (X t)).
  Qed.
  Lemma family_probability p : nth_error (a_data (probabilities D)) i = Some p ->
    exists P, (forall t, nth_error (a_data (probabilities (Q t))) i = Some (P t)) /\ derivative P (fst (p : dual)) (snd (p : dual)).
  Proof.
    apply (family_statistic (@probabilities) (@cumulative)); [intros t; apply (like_DQ t)|apply (fo_wf _ _ _ follows_D)|intros t; apply (fo_wf _ _ _ (follows_Q t))| | |exact (proj1 (proj1 family_stats))].
    - intros q Hq. rewrite (fo_p _ _ _ follows_D i q Hq), dual_program. reflexivity.
    - intros t q Hq. rewrite (fo_p _ _ _ (follows_Q t) i q Hq), at_program. reflexivity.
  Qed.
  Lemma family_residual p : nth_error (a_data (residuals D)) i = Some p ->
    exists P, (forall t, nth_error (a_data (residuals (Q t))) i = Some (P t)) /\ derivative P (fst (p : dual)) (snd (p : dual)).
  Proof.
    apply (family_statistic (@residuals) (@remainder)); [intros t; apply (like_DQ t)|apply (fo_wf _ _ _ follows_D)|intros t; apply (fo_wf _ _ _ (follows_Q t))| | |exact (proj1 (proj2 (proj1 family_stats)))].
    - intros q Hq. rewrite (fo_r _ _ _ follows_D i q Hq), dual_program. reflexivity.
    - intros t q Hq. rewrite (fo_r _ _ _ (follows_Q t) i q Hq), at_program. reflexivity.
  Qed.
  Lemma family_iterations p : nth_error (a_data (iterations D)) i = Some p ->
    exists P, (forall t, nth_error (a_data (iterations (Q t))) i = Some (P t)) /\ derivative P (fst (p : dual)) (snd (p : dual)).
  Proof.
    apply (family_statistic (@iterations) (@steps)); [intros t; apply (like_DQ t)|apply (fo_wf _ _ _ follows_D)|intros t; apply (fo_wf _ _ _ (follows_Q t))| | |exact (proj2 (proj2 (proj1 family_stats)))].
    - intros q Hq. rewrite (fo_i _ _ _ follows_D i q Hq), dual_program. reflexivity.
    - intros t q Hq. rewrite (fo_i _ _ _ (follows_Q t) i q Hq), at_program. reflexivity.
  Qed.
  Lemma acc_awf {N} (x : state N) k t : wf x -> dget k (accumulators x) = Some t -> Forall awf (leaves t).
  Proof. intros Wx H. pose proof (wf_acc _ Wx k t H) as L. revert L. apply Forall_impl. now intros a (A & _). Qed.
  Lemma update_smooth k l j (prog : list (option (curve * curve))) ls :
    map (option_map (fun e : curve * dict (tree (array CurveNum)) => (fst e, update_at k l j (snd e)))) ls = map (option_map (fun e => (fst e, Some (snd e)))) prog ->
    Forall (fun o : option (curve * dict (tree (array CurveNum))) => match o with Some e => smooth_dict (snd e) | None => True end) ls ->
    Forall second_sm prog.
  Proof.
    revert prog. induction ls as [|e ls IH]; intros [|p prog]; cbn [map]; try discriminate; [constructor|]. intros [= H1 H2] F. inversion_clear F as [|? ? Fe F'].
    constructor; [|now apply IH]. destruct e as [[v u]|], p as [[v' u']|]; cbn [option_map fst snd second_sm] in *; try discriminate; [|exact I].
    injection H1 as _ E. apply smooth_sm. unfold update_at in E. destruct (dget k u) as [t|] eqn:G; [|discriminate]. specialize (Fe k t G).
    destruct (nth_error (leaves t) l) as [a|] eqn:L; [|discriminate]. unfold smooth_tree in Fe. rewrite Forall_forall in Fe. specialize (Fe a (nth_error_In _ _ L)).
    unfold smooth_array in Fe. rewrite Forall_forall in Fe. apply Fe. now apply nth_error_In in E.
  Qed.
  Lemma lines_smooth (cs' : list (call CurveNum)) : Forall smooth_call cs' -> forall g, smooth_dict (waiting g) ->
    Forall (fun o : option (curve * dict (tree (array CurveNum))) => match o with Some e => smooth_dict (snd e) | None => True end) (lines g) ->
    Forall (fun o : option (curve * dict (tree (array CurveNum))) => match o with Some e => smooth_dict (snd e) | None => True end)
      (lines (fold_left (script_step i) cs' g)).
  Proof.
    induction 1 as [|c cs' Hc F IH]; intros g Hw Hl; [exact Hl|]. cbn [fold_left]. destruct c as [name item|h|]; cbn [script_step].
    - apply IH; [|exact Hl]. intros k x. cbn. destruct (String.eqb k name); [intros [= <-]; exact Hc|apply Hw].
    - destruct (nth_error (a_data h) i); apply IH; cbn [waiting lines]; try (intros k x; discriminate); [|exact Hl].
      apply Forall_app. split; [exact Hl|]. repeat constructor. exact Hw.
    - apply IH; [exact Hw|]. cbn [lines]. apply Forall_app. split; [exact Hl|]. repeat constructor.
  Qed.
  Lemma family_entry k T l a R j x : dget k (accumulators D) = Some T -> nth_error (leaves T) l = Some a ->
    a_shape a = batch_shape s ++ R -> j / size R = i -> nth_error (a_data a) j = Some x ->
    exists X, (forall t, entry (Q t) k l j = Some (X t)) /\ derivative X (fst (x : dual)) (snd (x : dual)).
  Proof.
    intros HT Ha HR Hj Hx. pose proof follows_D as FD.
    assert (WT : Forall awf (leaves T)) by (eapply acc_awf; [apply (fo_wf _ _ _ FD)|exact HT]).
    (* the default *)
    assert (HT0 : exists T0, dget k (accumulators sD) = Some T0).
    { apply dget_keys. rewrite <- (sf_accs _ _ (fo_frame _ _ _ FD)). apply dget_keys. eauto. }
    destruct HT0 as [T0 HT0]. pose proof (sf_acc _ _ (fo_frame _ _ _ FD) k T0 T HT0 HT) as Al.
    assert (Hd : dget k (defaults sD) = Some T0) by (rewrite <- HT0; symmetry; apply fresh_dual).
    assert (WT0 : Forall awf (leaves T0)) by (eapply acc_awf; [exact wf_dual|exact HT0]).
    destruct (alike_entry T T0 l a j x Al WT WT0 Ha Hx) as (dl & dv & Hdl & Hdv & _).
    destruct (fo_acc _ _ _ FD k T T0 HT Hd l a dl Ha Hdl R HR j x dv Hx Hdv) as (pd & Pd & Vd). rewrite Hj in Pd.
    (* the default is a curve *)
    assert (Cv : exists dc : curve, update_at k l j (defaults s) = Some dc /\ dv = snd dc /\ smooth dc).
    { assert (U : update_at k l j (defaults sD) = Some dv) by (unfold update_at; now rewrite Hd, Hdl).
      change (defaults sD) with (move_dict (N := CurveNum) (M := DualNum) snd (defaults s)) in U. rewrite update_at_moved in U.
      destruct (update_at k l j (defaults s)) as [dc|] eqn:Ud; [|discriminate]. injection U as <-. exists dc. split; [reflexivity|]. split; [reflexivity|].
      destruct Ss as (_ & _ & Sd). unfold update_at in Ud. destruct (dget k (defaults s)) as [t0|] eqn:G; [|discriminate]. specialize (Sd k t0 G).
      destruct (nth_error (leaves t0) l) as [a0|] eqn:L; [|discriminate]. unfold smooth_tree in Sd. rewrite Forall_forall in Sd. specialize (Sd a0 (nth_error_In _ _ L)).
      unfold smooth_array in Sd. rewrite Forall_forall in Sd. apply Sd. now apply nth_error_In in Ud. }
    destruct Cv as (dc & Ud & -> & Sdc).
    unfold dual_call in Pd. rewrite (returned_moved (N := CurveNum) (M := DualNum) snd _ s sD (like_move _ _ s)) in Pd.
    apply value_program_lift in Pd as (pc & Pc & ->).
    assert (Sp : Forall second_sm pc).
    { apply (update_smooth k l j pc (lines (script_of i (returned s cs))) Pc). apply (lines_smooth (returned s cs)); [|intros ? ?; discriminate|constructor].
      clear -Sc. revert s. induction Sc as [|c cs0 Hc F IH]; intros s0; [constructor|]. cbn. destruct (apply_call s0 c); [constructor|]; auto. }
    assert (Pf : map (option_map fst) pc = prog cs).
    { unfold value_program in Pc. unfold stats_program. revert Pc. generalize (lines (script_of i (returned s cs))). clear. intros ls. revert pc.
      induction ls as [|e ls IH]; intros [|p pc]; cbn [map]; try discriminate; auto. intros [= H1 H2]. f_equal; [|auto].
      destruct e as [[v u]|], p as [[v' u']|]; cbn in *; congruence. }
    assert (Tg : tangent (fun t => value_run (N := QcNum) (fst thrc t) (fst depc t) (fst dc t) stats0 (fst dc t) (map (option_map (at_pair t)) pc))
      (value_run (N := DualNum) (snd thrc) (snd depc) (snd dc) stats0 (snd dc) (map (option_map dual_pair) pc))).
    { apply smooth_sm in Sdc. apply (follows_value thrc depc sm_thr sm_dep thr_lt thr_pos D0 dc pc Sdc (fun _ => stats0) stats0 (fst dc) (snd dc)); auto.
      - apply follows_start.
      - apply settled_start. exact thr_pos.
      - pose proof program_clear as PC. rewrite <- Pf in PC. exact PC. }
    exists (fun t => number (entry (Q t) k l j)).
    assert (X : forall t, entry (Q t) k l j = Some (number (entry (Q t) k l j))).
    { intros t. destruct (like_update_at k l j (accumulators D) (accumulators (Q t)) x) as [y Hy].
      - apply (like_DQ t).
      - intros t0 H0. eapply acc_awf; [apply (fo_wf _ _ _ FD)|exact H0].
      - intros t0 H0. eapply acc_awf; [apply (fo_wf _ _ _ (follows_Q t))|exact H0].
      - unfold update_at. now rewrite HT, Ha.
      - unfold entry. rewrite Hy. reflexivity. }
    split; [exact X|]. apply tangent_derivative. rewrite Vd. refine (tangent_ext _ _ _ _ Tg). apply near_all. intros t. symmetry.
    generalize (X t). generalize (number (entry (Q t) k l j)). intros y Hy. unfold entry, update_at in Hy.
    destruct (dget k (accumulators (Q t))) as [T'|] eqn:HT'; [|discriminate]. destruct (nth_error (leaves T') l) as [a'|] eqn:Ha'; [|discriminate].
    pose proof (ldict_get like_tree k _ _ (like_accumulators _ _ (like_DQ t))) as LT. rewrite HT, HT' in LT. destruct LT as [_ LT].
    assert (Sh : a_shape a' = batch_shape (state_at t s) ++ R).
    { clear -LT Ha Ha' HR. revert l Ha Ha'. induction LT as [|b b' lb lb' Hb LT IH]; intros [|l]; cbn; try discriminate; [|now apply IH].
      intros [= ->] [= ->]. rewrite <- (proj1 Hb), HR. reflexivity. }
    assert (Ud' : update_at k l j (defaults (state_at t s)) = Some (fst dc t)).
    { change (defaults (state_at t s)) with (move_dict (N := CurveNum) (M := QcNum) (at_time t) (defaults s)). rewrite update_at_moved, Ud. reflexivity. }
    unfold update_at in Ud'. destruct (dget k (defaults (state_at t s))) as [dt|] eqn:Hdt; [|discriminate].
    destruct (nth_error (leaves dt) l) as [dlt|] eqn:Hdlt; [|discriminate].
    destruct (fo_acc _ _ _ (follows_Q t) k T' dt HT' Hdt l a' dlt Ha' Hdlt R Sh j y (fst dc t) Hy Ud') as (pt & Pt & ->). rewrite Hj in Pt.
    unfold call_at in Pt. rewrite (returned_moved (N := CurveNum) (M := QcNum) (at_time t) _ s (state_at t s) (like_move _ _ s)) in Pt.
    rewrite (value_program_unique _ _ _ _ _ _ _ Pt (value_program_moved (N := CurveNum) (M := QcNum) (at_time t) _ _ _ _ _ _ Pc)).
    reflexivity.
  Qed.
End Family.
