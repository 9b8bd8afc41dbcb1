(** * Facts about executions that are stopped and continued. *)
From Coq Require Import ZArith Lia.
From Verif Require Import Base PyTree Tensor Num Utils States Controller Layers Wf History ElementSpec StateSpec LayerSpec TraceSpec ResumeSpec.
From Verif Require Import BaseFacts PyTreeFacts StateFacts LayerFacts TraceFacts TraceFacts2.

Section Loop.
  Context {N : numsys} (check : bool) (l : layer N).
  Notation st := (state N).
  Notation tr := (tree (array N)).
  Notation carry := (@carry N).
  Notation body := (run_layer_adapter check l).

  Definition results (r : res carry) : res (st * tr) := match r with Ok (c, u, _) => Ok (c, u) | Err e => Err e end.
  Definition turn (c : st) (u : tr) : res (st * tr) :=
    update <- wrapped_run_iteration check l c u ;; unpack c update.
  Lemma body_turn c u m : body (c, u, m) = match turn c u with Ok (c', u') => Ok (c', u', increase_counter m) | Err e => Err e end.
  Proof.
    unfold run_layer_adapter, turn. destruct (wrapped_run_iteration check l c u) as [r|]; cbn [bind]; [|reflexivity].
    destruct (unpack c r) as [[c1 u1]|]; reflexivity.
  Qed.
  Lemma turn_proper c u c' u' : layer_typed l -> proper c -> turn c u = Ok (c', u') -> proper c'.
  Proof.
    intros [_ T] P. unfold turn. destruct (wrapped_run_iteration check l c u) as [r|] eqn:E; cbn [bind]; [|discriminate].
    intros H. apply wrapped_ok in E. apply unpack_hands_back in H. eauto.
  Qed.
  Lemma while_unfold f c u k n : while_fuel f body (c, u, mkM k n) =
    if negb (is_completely_halted c) && Z.ltb k n then
      match f with
      | 0 => Err NotImplementedError
      | S f' => match turn (canonical c) u with Ok (c', u') => while_fuel f' body (c', u', mkM (k + 1) n) | Err e => Err e end
      end
    else Ok (canonical c, u, mkM k n).
  Proof.
    destruct f; cbn [while_fuel]; rewrite rebuild_ok; cbn [bind]; unfold is_act_not_complete; rewrite completely_halted_canonical;
      cbn [num_iterations max_num_iterations]; destruct (negb (is_completely_halted c) && Z.ltb k n); try reflexivity.
    rewrite body_turn. destruct (turn (canonical c) u) as [[c' u']|]; reflexivity.
  Qed.
  Lemma while_more_fuel f : forall g c u k n, Z.to_nat (n - k) <= f -> Z.to_nat (n - k) <= g ->
    while_fuel f body (c, u, mkM k n) = while_fuel g body (c, u, mkM k n).
  Proof.
    induction f as [|f IH]; intros g c u k n F G; rewrite !while_unfold; destruct (negb (is_completely_halted c) && Z.ltb k n) eqn:E; try reflexivity;
      apply andb_prop in E as [_ E]; apply Z.ltb_lt in E; [lia|].
    destruct g; [lia|]. destruct (turn (canonical c) u) as [[c' u']|]; [|reflexivity]. apply IH; lia.
  Qed.
  (** Only the difference between the counter and the bound matters. *)
  Lemma while_shift f : forall c u k n k' n', (n - k = n' - k')%Z ->
    results (while_fuel f body (c, u, mkM k n)) = results (while_fuel f body (c, u, mkM k' n')).
  Proof.
    induction f as [|f IH]; intros c u k n k' n' D; rewrite !while_unfold;
      replace (Z.ltb k' n') with (Z.ltb k n) by (destruct (Z.ltb_spec k n), (Z.ltb_spec k' n'); try reflexivity; lia);
      destruct (negb (is_completely_halted c) && Z.ltb k n); try reflexivity.
    destruct (turn (canonical c) u) as [[c' u']|]; [|reflexivity]. apply IH. lia.
  Qed.
  Lemma while_canonical f c u k n : proper c ->
    while_fuel f body (canonical c, u, mkM k n) = while_fuel f body (c, u, mkM k n).
  Proof. intros P. rewrite !while_unfold, completely_halted_canonical, canonical_idem by exact P. reflexivity. Qed.
  Lemma while_split f : forall c u k n m c1 u1 m1, layer_typed l -> proper c -> (k <= n <= m)%Z ->
    while_fuel f body (c, u, mkM k n) = Ok (c1, u1, m1) ->
    forall g g', Z.to_nat (m - k) <= g -> Z.to_nat (m - n) <= g' ->
    results (while_fuel g body (c, u, mkM k m)) = results (while_fuel g' body (c1, u1, mkM n m)).
  Proof.
    induction f as [|f IH]; intros c u k n m c1 u1 m1 T P B E g g' G G'; rewrite while_unfold in E;
      (destruct (is_completely_halted c) eqn:Hc; cbn [negb andb] in E;
       [injection E as <- <- _; rewrite !while_unfold, completely_halted_canonical, Hc, canonical_idem by exact P; reflexivity|]);
      (destruct (Z.ltb_spec k n) as [L|L];
       [|injection E as <- <- _; assert (k = n) by lia; subst k; rewrite while_canonical by exact P;
         f_equal; apply while_more_fuel; lia]); [discriminate|].
    destruct (turn (canonical c) u) as [[c' u']|] eqn:Tn; [|discriminate].
    assert (P' := turn_proper _ _ _ _ T (canonical_proper _ P) Tn).
    rewrite (while_unfold g), Hc, Tn. cbn [negb andb]. destruct (Z.ltb_spec k m) as [_|]; [|lia].
    destruct g as [|g]; [lia|]. eapply IH; eauto; lia.
  Qed.
  (** Once everything has halted the bound does not matter. *)
  Lemma while_spare f : forall c u k n m c1 u1 m1, (n <= m)%Z ->
    while_fuel f body (c, u, mkM k n) = Ok (c1, u1, m1) -> is_completely_halted c1 = true ->
    forall g, Z.to_nat (m - k) <= g -> results (while_fuel g body (c, u, mkM k m)) = Ok (c1, u1).
  Proof.
    induction f as [|f IH]; intros c u k n m c1 u1 m1 B E H g G; rewrite while_unfold in E;
      (destruct (is_completely_halted c) eqn:Hc; cbn [negb andb] in E;
       [injection E as <- <- _; rewrite while_unfold, Hc; reflexivity|]);
      (destruct (Z.ltb_spec k n) as [L|L]; [|injection E as <- <- _; rewrite completely_halted_canonical in H; congruence]); [discriminate|].
    destruct (turn (canonical c) u) as [[c' u']|] eqn:Tn; [|discriminate].
    rewrite while_unfold, Hc, Tn. cbn [negb andb]. destruct (Z.ltb_spec k m) as [_|]; [|lia].
    destruct g as [|g]; [lia|]. eapply IH; eauto; lia.
  Qed.
  (** ** [while_loop]: the same behind the tracing *)
  Definition traced (c : st) (u : tr) : res unit :=
    _ <- guard (carry_leaves_ok c) TypeError ;;
    '(c', u') <- turn (canonical c) u ;;
    guard (same_abstract (c, u, mkM 0 0) (c', u', mkM 0 0)) TypeError.
  Lemma loop_traced c u k n : while_loop body (c, u, mkM k n) =
    match traced c u with Ok _ => while_fuel (Z.to_nat (n - k)) body (c, u, mkM k n) | Err e => Err e end.
  Proof.
    unfold while_loop, traced. destruct (carry_leaves_ok c); cbn [guard bind]; [|reflexivity]. rewrite rebuild_ok. cbn [bind].
    rewrite body_turn. destruct (turn (canonical c) u) as [[c' u']|]; cbn [bind]; [|reflexivity].
    change (same_abstract (c, u, mkM 0 0) (c', u', mkM 0 0)) with (same_abstract (c, u, mkM k n) (c', u', increase_counter (mkM k n))).
    destruct (same_abstract _ _); reflexivity.
  Qed.
  Lemma loop_spare c u n m c1 u1 m1 : (n <= m)%Z ->
    while_loop body (c, u, mkM 0 n) = Ok (c1, u1, m1) -> is_completely_halted c1 = true ->
    results (while_loop body (c, u, mkM 0 m)) = Ok (c1, u1).
  Proof.
    intros B. rewrite !loop_traced. destruct (traced c u); [|discriminate]. intros E H. eapply while_spare; eauto; lia.
  Qed.
  Lemma canonical_flat (c : st) : proper c -> flatten_controller (canonical c) = flatten_controller c.
  Proof.
    intros (A & B & C). unfold flatten_controller, save, tree_flatten_state, state_flatten, field_trees, dict_tree, canonical.
    cbn [epsilon iterations residuals probabilities defaults accumulators updates depression_constant error_mode].
    now rewrite !sort_idempotent.
  Qed.
  Lemma canonical_abstract (c : st) : proper c -> abstract_ctrl (canonical c) = abstract_ctrl c /\ carry_leaves_ok (canonical c) = carry_leaves_ok c.
  Proof. intros P. unfold abstract_ctrl, carry_leaves_ok. now rewrite canonical_flat. Qed.
  Lemma while_result f : forall c u k n c1 u1 m1, layer_typed l -> proper c ->
    while_fuel f body (c, u, mkM k n) = Ok (c1, u1, m1) -> proper c1 /\ canonical c1 = c1.
  Proof.
    induction f as [|f IH]; intros c u k n c1 u1 m1 T P E; rewrite while_unfold in E;
      (destruct (negb (is_completely_halted c) && Z.ltb k n);
       [|injection E as <- <- _; auto using canonical_proper, canonical_idem]); [discriminate|].
    destruct (turn (canonical c) u) as [[c' u']|] eqn:Tn; [|discriminate].
    eapply IH; [exact T| |exact E]. eauto using turn_proper, canonical_proper.
  Qed.
  (** The result of an execution can be traced again. *)
  Lemma traced_again f c u k n c1 u1 m1 : traceable l -> layer_typed l -> proper c -> Z.to_nat (n - k) <= f ->
    traced c u = Ok tt -> while_fuel f body (c, u, mkM k n) = Ok (c1, u1, m1) ->
    traced c1 u1 = Ok tt /\ like c1 (canonical c) /\ like_tree u1 u.
  Proof.
    intros Tr T P F H E. unfold traced in H.
    destruct (carry_leaves_ok c) eqn:O; cbn [guard bind] in H; [|discriminate].
    destruct (turn (canonical c) u) as [[c' u']|] eqn:Tn; cbn [bind] in H; [|discriminate].
    destruct (same_abstract (c, u, mkM 0 0) (c', u', mkM 0 0)) eqn:A; [|discriminate].
    destruct (loop_runs l Tr check (c, u, mkM k n) (canonical c, u, mkM k n) (c', u', increase_counter (mkM k n)) O (rebuild_ok _ _ _)) with
      (fuel := f) (z := (c, u, mkM k n)) (z0 := (canonical c, u, mkM k n)) as (r & Er & Lr).
    - now rewrite body_turn, Tn.
    - exact A.
    - apply rebuild_ok.
    - split; [apply like_refl|apply like_tree_refl].
    - exact F.
    - assert (r = (c1, u1, m1)) by congruence. subst r. destruct Lr as [L1 L2]. cbn [fst snd] in L1, L2. split; [|split; assumption].
      destruct (while_result _ _ _ _ _ _ _ _ T P E) as [P1 C1]. unfold traced. rewrite C1.
      rewrite (leaves_ok_like _ _ L1), (proj2 (canonical_abstract _ P)), O. cbn [guard bind].
      pose proof (rr_adapter l l Tr check _ _ _ _ (mkM 0 0) (mkM 0 0) L1 L2) as R. rewrite !body_turn, Tn in R.
      destruct (turn c1 u1) as [[c2 u2]|]; cbn [same_outcome] in R; [|contradiction]. destruct R as ([R1 R2] & _ & _). cbn [fst snd] in R1, R2.
      cbn [bind]. apply same_abstract_iff in A as [A1 A2].
      assert (X : same_abstract (c1, u1, mkM 0 0) (c2, u2, mkM 0 0) = true).
      { apply same_abstract_iff. split.
        - rewrite (abstract_like _ _ L1), (abstract_like _ _ R1), (proj1 (canonical_abstract _ P)). exact A1.
        - rewrite (proj1 (abstract_user_like _ _) L2), (proj1 (abstract_user_like _ _) R2). exact A2. }
      now rewrite X.
  Qed.
  Lemma loop_split c u n m c1 u1 m1 : traceable l -> layer_typed l -> proper c -> (0 <= n <= m)%Z ->
    while_loop body (c, u, mkM 0 n) = Ok (c1, u1, m1) ->
    results (while_loop body (c1, u1, mkM 0 (m - n))) = results (while_loop body (c, u, mkM 0 m)) /\
    exists r, results (while_loop body (c, u, mkM 0 m)) = Ok r.
  Proof.
    intros Tr T P B. rewrite !loop_traced. destruct (traced c u) as [[]|] eqn:H; [|discriminate]. intros E.
    destruct (traced_again _ _ _ _ _ _ _ _ Tr T P (Nat.le_refl _) H E) as (H1 & L1 & L2). rewrite H1.
    assert (X := while_split _ _ _ _ _ _ _ _ _ T P B E (Z.to_nat (m - 0)) (Z.to_nat (m - n - 0)) ltac:(lia) ltac:(lia)).
    rewrite X. split.
    - apply while_shift. lia.
    - rewrite <- X. unfold traced in H.
      destruct (carry_leaves_ok c) eqn:O; cbn [guard bind] in H; [|discriminate].
      destruct (turn (canonical c) u) as [[c' u']|] eqn:Tn; cbn [bind] in H; [|discriminate].
      destruct (same_abstract (c, u, mkM 0 0) (c', u', mkM 0 0)) eqn:A; [|discriminate].
      destruct (loop_runs l Tr check (c, u, mkM 0 m) (canonical c, u, mkM 0 m) (c', u', increase_counter (mkM 0 m)) O (rebuild_ok _ _ _)) with
        (fuel := Z.to_nat (m - 0)) (z := (c, u, mkM 0 m)) (z0 := (canonical c, u, mkM 0 m)) as ([[cr ur] mr] & Er & Lr); auto.
      + now rewrite body_turn, Tn.
      + apply rebuild_ok.
      + split; [apply like_refl|apply like_tree_refl].
      + rewrite Er. cbn. eauto.
  Qed.
End Loop.
