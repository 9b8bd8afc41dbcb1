(** * Invariants of one batch element over call histories, for any arithmetic *)
From Verif Require Import Base PyTree Tensor Num States Controller Wf Spec History ElementSpec.
From Verif Require Import BaseFacts TensorFacts ControllerFacts IterateFacts ResetFacts HistoryFacts.
From Verif Require Import AgreeFacts ExactFacts.
Open Scope list_scope. Open Scope nat_scope.

Section Elements.
  Context {N : numsys}.
  Notation st := (state N).

  Lemma element_exists (s : st) i p : wf s -> nth_error (a_data (probabilities s)) i = Some p ->
    exists r n, element s i p r n.
  Proof.
    intros W Hp. destruct (batch_get s (residuals s) i p W (wf_r _ W) (wf_r_shape _ W) Hp) as [r Hr].
    destruct (batch_get s (iterations s) i p W (wf_i _ W) (wf_i_shape _ W) Hp) as [n Hn].
    exists r, n. repeat split; auto.
  Qed.
  Lemma same_settings (s s' : st) : epsilon s' = epsilon s -> depression_constant s' = depression_constant s ->
    (forall p v, next_p s' p v = next_p s p v) /\ (forall p r v, next_r s' p r v = next_r s p r v) /\
    (forall p n, next_i s' p n = next_i s p n) /\ (forall p v, kept s' p v = kept s p v) /\
    (forall p, halted_at s' p = halted_at s p) /\ (forall p v, halts_now s' p v = halts_now s p v).
  Proof.
    intros E D. unfold next_p, next_r, next_i, kept, weight, halts_now, scaled, halted_at, threshold.
    rewrite E, D. repeat split; reflexivity.
  Qed.
  (** One call. *)
  Lemma after_element (s : st) c i p' r' n' :
    wf s -> wf_pending s -> call_wf c -> element (after s c) i p' r' n' ->
    exists p r n, element s i p r n /\
      ((returned s [c] = [] \/ (exists k t, c = CCache k t)) /\ p' = p /\ r' = r /\ n' = n \/
       (exists h v, c = CIter h /\ returned s [c] = [c] /\ nth_error (a_data h) i = Some v /\
          p' = next_p s p v /\ r' = next_r s p r v /\ n' = next_i s p n) \/
       (c = CReset /\ p' = kept s p p /\ r' = kept s p r /\ n' = kept s p n)).
  Proof.
    intros W P Hc (A & B & C). unfold after in *. cbn [returned].
    destruct (apply_call s c) as [s'|e] eqn:E.
    2:{ exists p', r', n'. split; [repeat split; assumption|]. left. auto. }
    destruct c as [k t|h|]; cbn [apply_call call_wf] in *.
    - apply cache_same in E. subst s'. exists p', r', n'. split; [repeat split; assumption|]. left.
      split; [right; eauto|auto].
    - destruct (iterate_committed s h s' W P Hc E) as (Cm & W' & _).
      destruct (proj1 (iterate_ok_iff s h W P Hc) (ex_intro _ _ E)) as (Hs & _ & _).
      destruct (nth_error_same_length (a_data (probabilities s')) (a_data (probabilities s)) i p') as [p Hp]; auto.
      { rewrite (wf_batch_len s W), (wf_batch_len s' W'). pose proof (cm_p_sig _ _ _ Cm) as X. unfold sig in X.
        injection X as X _. unfold batch_shape. congruence. }
      destruct (element_exists s i p W Hp) as (r & n & El). exists p, r, n. split; [exact El|].
      destruct El as (_ & Hr & Hn).
      destruct (nth_error_same_length (a_data (probabilities s)) (a_data h) i p) as [v Hv]; auto.
      { rewrite (wf_batch_len s W). unfold awf, twf in Hc. fold (a_shape h) in Hc. fold (a_data h) in Hc. congruence. }
      right. left. exists h, v. split; [reflexivity|]. split; [reflexivity|]. split; [exact Hv|].
      pose proof (cm_p _ _ _ Cm i p v Hp Hv). pose proof (cm_r _ _ _ Cm i p r v Hp Hr Hv).
      pose proof (cm_i _ _ _ Cm i p n Hp Hn). repeat split; congruence.
    - destruct (reset_effect s s' W E) as (Rs & W').
      destruct (nth_error_same_length (a_data (probabilities s')) (a_data (probabilities s)) i p') as [p Hp]; auto.
      { rewrite (wf_batch_len s W), (wf_batch_len s' W'). pose proof (rs_p_sig _ _ Rs) as X. unfold sig in X.
        injection X as X _. unfold batch_shape. congruence. }
      destruct (element_exists s i p W Hp) as (r & n & El). exists p, r, n. split; [exact El|].
      destruct El as (_ & Hr & Hn). right. right. split; [reflexivity|].
      pose proof (rs_p _ _ Rs i p Hp). pose proof (rs_r _ _ Rs i p r Hp Hr).
      pose proof (rs_i _ _ Rs i p n Hp Hn). repeat split; congruence.
  Qed.

  Theorem run_element (okv : val N -> Prop) (I : val N -> val N -> val N -> Prop) (s0 : st) :
    (forall p r n v, I p r n -> okv v -> I (next_p s0 p v) (next_r s0 p r v) (next_i s0 p n)) ->
    (forall p r n, I p r n -> I (kept s0 p p) (kept s0 p r) (kept s0 p n)) ->
    forall cs (s : st), epsilon s = epsilon s0 -> depression_constant s = depression_constant s0 ->
    wf s -> wf_pending s -> Forall call_wf cs -> Forall (halting_values okv) cs ->
    (forall i p r n, element s i p r n -> I p r n) ->
    forall i p r n, element (run s cs) i p r n -> I p r n.
  Proof.
    intros Step Kept cs. induction cs as [|c cs IH]; intros s E D W P F G H; [exact H|].
    inversion F; inversion G; subst. rewrite run_cons. destruct (after_wf s c W P) as [W' P']; auto.
    pose proof (after_frame s c W P ltac:(assumption)) as Fr.
    apply IH; auto.
    - rewrite (sf_eps _ _ Fr). exact E.
    - rewrite (sf_dep _ _ Fr). exact D.
    - intros i p' r' n' El. destruct (same_settings s0 s E D) as (N1 & N2 & N3 & N4 & _).
      destruct (after_element s c i p' r' n' W P ltac:(assumption) El) as (p & r & n & El0 & [(_ & -> & -> & ->)|[X|X]]).
      + exact (H i p r n El0).
      + destruct X as (h & v & -> & _ & Hv & -> & -> & ->). rewrite N1, N2, N3. apply Step; [exact (H i p r n El0)|].
        cbn [halting_values] in *. match goal with Q : Forall okv (a_data h) |- _ => exact (Forall_nth _ _ _ _ Q Hv) end.
      + destruct X as (-> & -> & -> & ->). rewrite !N4. apply Kept. exact (H i p r n El0).
  Qed.
  (** Without resets, with the values received so far at hand. *)
  Theorem run_element_values (okv : val N -> Prop) (I : list (val N) -> val N -> val N -> val N -> Prop) (s0 : st) :
    (forall vs p r n v, I vs p r n -> okv v -> I (vs ++ [v]) (next_p s0 p v) (next_r s0 p r v) (next_i s0 p n)) ->
    forall i cs (s : st) vs, epsilon s = epsilon s0 -> depression_constant s = depression_constant s0 ->
    wf s -> wf_pending s -> Forall call_wf cs -> Forall (fun c => c <> CReset) cs ->
    Forall (fun c => Forall okv (value_of i c)) cs ->
    (forall p r n, element s i p r n -> I vs p r n) ->
    forall p r n, element (run s cs) i p r n -> I (vs ++ values_of i (returned s cs)) p r n.
  Proof.
    intros Step i cs. induction cs as [|c cs IH]; intros s vs E D W P F R G H.
    { cbn [returned values_of flat_map]. rewrite app_nil_r. exact H. }
    inversion F; inversion G; inversion R; subst. rewrite run_cons. destruct (after_wf s c W P) as [W' P']; auto.
    pose proof (after_frame s c W P ltac:(assumption)) as Fr.
    assert (Hv : returned s (c :: cs) = returned s [c] ++ returned (after s c) cs).
    { cbn [returned]. unfold after. destruct (apply_call s c); reflexivity. }
    rewrite Hv. unfold values_of. rewrite flat_map_app, app_assoc. apply IH; auto.
    - rewrite (sf_eps _ _ Fr). exact E.
    - rewrite (sf_dep _ _ Fr). exact D.
    - intros p' r' n' El. destruct (same_settings s0 s E D) as (N1 & N2 & N3 & N4 & _).
      destruct (after_element s c i p' r' n' W P ltac:(assumption) El) as (p & r & n & El0 & [(X & -> & -> & ->)|[X|X]]).
      + replace (flat_map (value_of i) (returned s [c])) with (@nil (val N)); [rewrite app_nil_r; exact (H p r n El0)|].
        destruct X as [->|(k & t & ->)]; [reflexivity|]. cbn [returned]. destruct (apply_call s (CCache k t)); reflexivity.
      + destruct X as (h & v & -> & -> & Hv' & -> & -> & ->). cbn [flat_map value_of]. rewrite Hv'. cbn [app].
        rewrite N1, N2, N3. apply Step; [exact (H p r n El0)|].
        match goal with Q : Forall okv (value_of i (CIter h)) |- _ => cbn [value_of] in Q; rewrite Hv' in Q; now inversion Q end.
      + destruct X as (-> & _). congruence.
  Qed.
End Elements.
