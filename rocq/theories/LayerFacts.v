(** * Facts about the loop and the contract wrapper. *)
From Verif Require Import Base PyTree Tensor Num Utils States Controller Layers Wf History ElementSpec StateSpec LayerSpec.
From Coq Require Import Permutation Sorted.
From Verif Require Import BaseFacts PyTreeFacts TensorFacts ControllerFacts IterateFacts ResetFacts HistoryFacts StateFacts.

Section LayerFacts.
  Context {N : numsys}.
  Notation st := (state N).
  Notation tr := (tree (array N)).
  Notation carry := (@carry N).

  Lemma rebuild_ok (c : st) (u : tr) m : rebuild (c, u, m) = Ok (canonical c, u, m).
  Proof.
    unfold rebuild. destruct (flatten_controller c) as [flat td] eqn:E. unfold flatten_controller, save in E.
    assert (R := flatten_round_trip c). rewrite E in R. cbn [fst snd] in R. unfold unflatten_controller. rewrite R. cbn [bind].
    rewrite unflatten_leaves. reflexivity.
  Qed.
  Lemma completely_halted_same (c c' : st) : same_state c c' -> is_completely_halted c' = is_completely_halted c.
  Proof. intros H. unfold is_completely_halted. now rewrite (halted_same _ _ H). Qed.
  Lemma completely_halted_canonical (c : st) : is_completely_halted (canonical c) = is_completely_halted c.
  Proof. reflexivity. Qed.

  Lemma all_halted_iff (c : st) : is_completely_halted c = true <-> all_halted c.
  Proof.
    unfold is_completely_halted, tall, halted_batches, gt_scl, tensor_map, all_halted. cbn [data]. rewrite forallb_forall. split.
    - intros H p Hp. apply H. apply in_map_iff. now exists p.
    - intros H b Hb. apply in_map_iff in Hb as (p & <- & Hp). now apply H.
  Qed.
  Lemma not_all_halted_iff (c : st) : is_completely_halted c = false <-> ~ all_halted c.
  Proof. rewrite <- all_halted_iff. symmetry. apply not_true_iff_false. Qed.


  (** The body counts: [run_layer_adapter] does. *)
  Definition counts (body : carry -> res carry) : Prop :=
    forall c u m c' u' m', body (c, u, m) = Ok (c', u', m') -> m' = increase_counter m.
  Lemma adapter_counts check l : counts (run_layer_adapter check l).
  Proof.
    intros c u m c' u' m'. unfold run_layer_adapter. destruct (wrapped_run_iteration check l c u) as [r|]; cbn [bind]; [|discriminate].
    destruct (unpack c r) as [[c1 u1]|]; cbn [bind]; [|discriminate]. congruence.
  Qed.
  Lemma while_total (body : carry -> res carry) x fuel : counts body -> remaining x <= fuel ->
    exists n, while_runs body x n (while_fuel fuel body x) /\ n <= remaining x.
  Proof.
    intros C. revert x. induction fuel as [|fuel IH]; intros [[c u] m] L; cbn [while_fuel]; rewrite rebuild_ok; cbn [bind].
    - destruct (is_act_not_complete (canonical c, u, m)) eqn:E.
      + exfalso. unfold is_act_not_complete in E. apply andb_prop in E as [_ E]. apply Z.ltb_lt in E. unfold remaining in L. lia.
      + exists 0. split; [apply wr_done; [apply rebuild_ok|exact E]|lia].
    - destruct (is_act_not_complete (canonical c, u, m)) eqn:E.
      + assert (0 < remaining (c, u, m)).
        { unfold is_act_not_complete in E. apply andb_prop in E as [_ E]. apply Z.ltb_lt in E. unfold remaining. lia. }
        destruct (body (canonical c, u, m)) as [[[c1 u1] m1]|e] eqn:B; cbn [bind].
        * pose proof (C _ _ _ _ _ _ B) as ->. destruct (IH (c1, u1, increase_counter m)) as (n & R & Hn).
          { unfold remaining in *. destruct m as [k0 mx]. unfold increase_counter. cbn [num_iterations max_num_iterations] in *. lia. }
          exists (S n). split; [eapply wr_step; eauto using rebuild_ok|].
          unfold remaining in *. destruct m as [k0 mx]. unfold increase_counter in *. cbn [num_iterations max_num_iterations] in *. lia.
        * exists 1. split; [eapply wr_raise; eauto using rebuild_ok|lia].
      + exists 0. split; [apply wr_done; [apply rebuild_ok|exact E]|lia].
  Qed.
  Lemma while_runs_det (body : carry -> res carry) x n r n' r' : while_runs body x n r -> while_runs body x n' r' -> n = n' /\ r = r'.
  Proof.
    intros H. revert n' r'. induction H; intros n' r' H'; inversion H'; subst; try congruence; try (split; congruence).
    assert (y0 = y) by congruence. subst. assert (z0 = z) by congruence. subst.
    match goal with X : while_runs body z _ _ |- _ => destruct (IHwhile_runs _ _ X); subst; auto end.
  Qed.

  (** ** The adapter *)
  Lemma unpack_hands_back (c : st) r c' u' : unpack c r = Ok (c', u') <-> hands_back c r c' u'.
  Proof.
    destruct r as [is|t]; cbn; [|destruct (iter_length t) as [[|[|[|]]]|]; split; discriminate || tauto].
    destruct is as [|[ |c1|t1] [|[ |c2|t2] [|]]]; cbn; split; try discriminate; try tauto; try (intros [= <- <-]; auto); intros [-> ->]; reflexivity.
  Qed.
  Lemma wrapped_ok check l (c : st) u r : wrapped_run_iteration check l c u = Ok r -> l_run_iteration l c u = Ok r.
  Proof.
    unfold wrapped_run_iteration. destruct (l_run_iteration l c u) as [r'|]; cbn [bind]; [|discriminate].
    destruct (if check then _ else _); cbn [bind]; congruence.
  Qed.
  Lemma adapter_ok check l (c : st) u m c' u' m' : run_layer_adapter check l (c, u, m) = Ok (c', u', m') ->
    exists r, l_run_iteration l c u = Ok r /\ hands_back c r c' u' /\ m' = increase_counter m.
  Proof.
    unfold run_layer_adapter. destruct (wrapped_run_iteration check l c u) as [r|] eqn:E; cbn [bind]; [|discriminate].
    destruct (unpack c r) as [[c1 u1]|] eqn:U; cbn [bind]; [|discriminate]. intros [= <- <- <-].
    exists r. split; [eapply wrapped_ok; eauto|]. split; [now apply unpack_hands_back|reflexivity].
  Qed.

  Lemma while_turns check l (c : st) u m n r c' u' m' : layer_typed l -> proper c ->
    while_runs (run_layer_adapter check l) (c, u, m) n r -> r = Ok (c', u', m') ->
    turns l c u n c' u' /\ proper c' /\ num_iterations m' = (num_iterations m + Z.of_nat n)%Z /\
    max_num_iterations m' = max_num_iterations m /\
    (n = 0 \/ (num_iterations m + Z.of_nat n <= max_num_iterations m)%Z) /\
    (is_completely_halted c' = true \/ (max_num_iterations m <= num_iterations m + Z.of_nat n)%Z).
  Proof.
    intros [T1 T2] P H. remember (c, u, m) as x eqn:Ex. revert c u m Ex P c' u' m'.
    induction H as [x e He|x y Hy Hc|x y e Hy Hc Hb|x y z n r Hy Hc Hb Hr IH]; intros c u m -> P c' u' m' Er; try discriminate.
    - rewrite rebuild_ok in Hy. injection Hy as <-. injection Er as <- <- <-.
      split; [constructor; now apply canonical_same|]. split; [now apply canonical_proper|]. split; [lia|]. split; [reflexivity|]. split; [auto|].
      unfold is_act_not_complete in Hc. apply andb_false_iff in Hc as [Hc|Hc]; [left; now apply negb_false_iff|right].
      apply Z.ltb_ge in Hc. lia.
    - rewrite rebuild_ok in Hy. injection Hy as <-. destruct z as [[c1 u1] m1].
      destruct (adapter_ok _ _ _ _ _ _ _ _ Hb) as (q & Hq & Hh & ->).
      assert (P0 := canonical_proper c P). assert (P1 := T2 _ _ _ _ _ P0 Hq Hh).
      destruct (IH _ _ _ eq_refl P1 _ _ _ Er) as (A & B & C & D & E & F).
      unfold is_act_not_complete in Hc. apply andb_prop in Hc as [Hc1 Hc2]. apply negb_true_iff in Hc1. apply Z.ltb_lt in Hc2.
      destruct m as [k mx]. unfold increase_counter in *. cbn [num_iterations max_num_iterations] in *.
      split; [|split; [exact B|split; [lia|split; [exact D|split; [right; destruct E; lia|destruct F; [now left|right; lia]]]]]].
      eapply one_turn; [now apply canonical_same|exact P0|rewrite completely_halted_canonical in Hc1; now apply not_all_halted_iff|exact Hq|exact Hh|exact A].
  Qed.

  (** What a successful [execute_act] went through. *)
  Lemma execute_inv l init dep bound check (c' : st) u' : execute_act l init dep bound check = Ok (c', u') ->
    exists c m', l_make_controller l init dep = Ok (MCtrl c) /\ l_setup_lazy l c init = Ok tt /\
      carry_leaves_ok c = true /\ (check = true -> accumulators c <> []) /\
      (exists c1 u1 m1, run_layer_adapter check l (canonical c, init, mkM 0 bound) = Ok (c1, u1, m1) /\
         same_abstract (c, init, mkM 0 bound) (c1, u1, m1) = true) /\
      while_fuel (Z.to_nat bound) (run_layer_adapter check l) (c, init, mkM 0 bound) = Ok (c', u', m').
  Proof.
    unfold execute_act, wrapped_make_controller. destruct (l_make_controller l init dep) as [m|] eqn:M; cbn [bind]; [|discriminate].
    destruct (if check then validate_made m else Ok tt) eqn:V; cbn [bind]; [|discriminate]. destruct m as [c|]; [|discriminate].
    destruct (l_setup_lazy l c init) as [[]|] eqn:S; cbn [bind]; [|discriminate]. unfold while_loop.
    destruct (carry_leaves_ok c) eqn:K; cbn [guard bind]; [|discriminate]. rewrite rebuild_ok. cbn [bind].
    destruct (run_layer_adapter check l (canonical c, init, mkM 0 bound)) as [[[c1 u1] m1]|] eqn:B; cbn [bind]; [|discriminate].
    destruct (same_abstract (c, init, mkM 0 bound) (c1, u1, m1)) eqn:A; cbn [guard bind]; [|discriminate].
    unfold remaining. cbn [num_iterations max_num_iterations]. rewrite Z.sub_0_r.
    destruct (while_fuel (Z.to_nat bound) (run_layer_adapter check l) (c, init, mkM 0 bound)) as [[[c2 u2] m2]|] eqn:W; cbn [bind]; [|discriminate].
    intros [= <- <-]. exists c, m2. repeat split; auto.
    - intros ->. unfold validate_made in V. destruct (accumulators c); [discriminate|congruence].
    - exists c1, u1, m1. auto.
  Qed.

  (** ** Layers that respect equality of controllers *)
  Lemma hands_back_same (c c' : st) r r' c1 u1 : same_state c c' -> same_ret r r' -> hands_back c r c1 u1 ->
    exists c1', hands_back c' r' c1' u1 /\ same_state c1 c1'.
  Proof.
    intros S R H. destruct r as [is|]; [|destruct H]. destruct r' as [is'|]; [|destruct R]. cbn [same_ret] in R.
    destruct is as [|i1 [|i2 [|]]]; cbn in H; try (destruct i1; try destruct i2; tauto); try tauto.
    inversion R as [|? j1 ? ? R1 R']; subst. inversion R' as [|? j2 ? ? R2 R'']; subst. inversion R''; subst.
    destruct i1, i2; try tauto; destruct j1, j2; cbn in R1, R2; try tauto; destruct H as [-> ->]; subst; cbn; eauto.
  Qed.
  Lemma turns_doc l (c d : st) u n c' u' : layer_typed l -> layer_respects l -> proper c -> proper d -> same_state c d ->
    turns l c u n c' u' -> is_completely_halted c' = true -> exists d', doc_loop l d u n d' u' /\ same_state c' d'.
  Proof.
    intros [_ T] R P Pd S H. revert d P Pd S.
    induction H as [c u c' E|c c0 u r c1 u1 n c2 u2 E P0 Nh Hr Hh Ht IH]; intros d P Pd S Hc.
    - exists d. split; [|eapply same_state_trans; [apply same_state_sym; exact E|exact S]]. constructor. apply all_halted_iff.
      rewrite (completely_halted_same _ _ S). now rewrite <- (completely_halted_same _ _ E).
    - assert (S0 : same_state c0 d) by (eapply same_state_trans; [apply same_state_sym; exact E|exact S]).
      assert (X := R c0 d u P0 Pd S0). rewrite Hr in X. destruct (l_run_iteration l d u) as [r'|] eqn:Hr'; [|destruct X].
      destruct (hands_back_same _ _ _ _ _ _ S0 X Hh) as (d1 & Hh' & S1).
      assert (P1 := T _ _ _ _ _ P0 Hr Hh). assert (Pd1 := T _ _ _ _ _ Pd Hr' Hh').
      destruct (IH d1 P1 Pd1 S1 Hc) as (d' & D & Sd). exists d'. split; [|exact Sd].
      eapply doc_step; eauto. apply not_all_halted_iff. apply not_all_halted_iff in Nh. now rewrite (completely_halted_same _ _ S).
  Qed.

  (** ** Equal controllers flatten to the same leaves *)
  Lemma sorted_unique {V} (d d' : dict V) : NoDup (dkeys d) ->
    StronglySorted key_le (dkeys d) -> StronglySorted key_le (dkeys d') -> Permutation d d' -> d = d'.
  Proof.
    revert d'. induction d as [|kv d IH]; intros d' ND S S' P.
    - apply Permutation_nil in P. now subst.
    - destruct d' as [|kv' d']; [apply Permutation_sym, Permutation_nil in P; discriminate|].
      assert (ND' : NoDup (dkeys (kv' :: d'))) by (eapply Permutation_NoDup; [apply Permutation_map; exact P|exact ND]).
      cbn in S, S', ND, ND'. apply StronglySorted_inv in S as [S F]. apply StronglySorted_inv in S' as [S' F'].
      rewrite Forall_forall in F, F'. apply NoDup_cons_iff in ND as [A B]. apply NoDup_cons_iff in ND' as [A' B'].
      assert (E : kv = kv').
      { assert (I1 : In kv (kv' :: d')) by (eapply Permutation_in; [exact P|now left]).
        assert (I2 : In kv' (kv :: d)) by (eapply Permutation_in; [apply Permutation_sym; exact P|now left]).
        destruct I1 as [I1|I1]; [congruence|]. destruct I2 as [I2|I2]; [congruence|]. exfalso.
        assert (K1 := F' _ (in_map fst _ _ I1)). assert (K2 := F _ (in_map fst _ _ I2)).
        assert (Ne : fst kv <> fst kv') by (intros Ef; apply A; rewrite Ef; exact (in_map fst _ _ I2)).
        assert (L := key_le_lt _ _ K1 (not_eq_sym Ne)). unfold key_le in K2. congruence. }
      subst kv'. f_equal. apply IH; auto. eapply Permutation_cons_inv; exact P.
  Qed.
  Lemma same_dict_sort {V} (d d' : dict V) : NoDup (dkeys d) -> NoDup (dkeys d') -> (forall k, dget k d = dget k d') ->
    sort_items d = sort_items d'.
  Proof.
    intros A B H. apply sorted_unique; auto using nodup_sort, sort_sorted.
    etransitivity; [apply sort_items_perm|]. etransitivity; [|apply Permutation_sym, sort_items_perm].
    assert (X : forall d : dict V, NoDup (dkeys d) -> NoDup d).
    { clear. intros d Hd. unfold dkeys in Hd. exact (NoDup_map_inv _ _ Hd). }
    apply NoDup_Permutation; auto. intros [k v]. split; intros Hin.
    - apply dget_In. rewrite <- H. now apply dget_nodup.
    - apply dget_In. rewrite H. now apply dget_nodup.
  Qed.
  Lemma flatten_same (s s' : st) : proper s -> proper s' -> same_state s s' -> flatten_controller s = flatten_controller s'.
  Proof.
    intros (A & B & C) (A' & B' & C') [e i r p d a u c m]. unfold flatten_controller, save, tree_flatten_state, state_flatten, field_trees, dict_tree.
    rewrite e, i, r, p, c, m, (same_dict_sort _ _ A A' d), (same_dict_sort _ _ B B' a), (same_dict_sort _ _ C C' u). reflexivity.
  Qed.
  Lemma abstract_same (s s' : st) : proper s -> proper s' -> same_state s s' -> abstract_ctrl s = abstract_ctrl s'.
  Proof. intros A B C. unfold abstract_ctrl. now rewrite (flatten_same _ _ A B C). Qed.
  Lemma same_abstract_intro (c c' : st) u u' m m' : abstract_ctrl c' = abstract_ctrl c -> abstract_user u' = abstract_user u ->
    same_abstract (c, u, m) (c', u', m') = true.
  Proof.
    intros A B. unfold same_abstract. rewrite A, B. destruct (abstract_ctrl c) as [al [aux ns]]. destruct (abstract_user u) as [ul utd].
    destruct (list_eq_dec aleaf_eq_dec al al); [|contradiction]. destruct (list_eq_dec aleaf_eq_dec ul ul); [|contradiction].
    unfold tdl_eqb. rewrite !(proj2 (td_eqb_eq _ _)) by reflexivity. now rewrite shape_eqb_refl.
  Qed.
End LayerFacts.
