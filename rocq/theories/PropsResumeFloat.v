(** * C89 for compiled executions, and for halted elements in IEEE-754 arithmetic. *)
From Coq Require Import ZArith Reals Lia.
From Flocq Require Import Core BinarySingleNaN.
From Verif Require Import Base PyTree Tensor Num FloatNum FloatSpec Utils States Controller Layers
  Wf History ElementSpec StateSpec LayerSpec TraceSpec ResumeSpec Jit.
From Verif Require Import BaseFacts ControllerFacts IterateFacts HistoryFacts StateFacts LayerFacts LayerFacts2 LayerFacts3 LayerFacts4 LoopFacts
  FloatFacts FloatFacts2 FloatFacts3 FloatFacts4 TraceFacts TraceFacts2 MoveFacts JitFacts ResumeFacts.
From Verif Require Import PropsController PropsTrace PropsFloat PropsLoopFloat PropsJit PropsIeeeLoop PropsResume.
Close Scope R_scope. Close Scope Z_scope. Open Scope string_scope. Open Scope list_scope. Open Scope nat_scope.

(** A compiled execution ([l]: the layer as Python runs it, [l']: as it is traced) that is stopped after
    [n] iterations and continued: the second execution gets the controller compiled code returned, whose
    scalars are float32 already. *)
Theorem C89_compiled_continued (prec emax : Z) {Hp : Prec_gt_0 prec} {Hm : Prec_lt_emax prec emax}
  (l : layer (FloatNum prec emax)) (l' : layer (JitNum prec emax)) u dep n m check c1 u1 lazy dep' :
  traceable l' -> layer_typed l -> layer_typed l' -> (0 <= n <= m)%Z ->
  execute_act_compiled l l' u dep n check = Ok (c1, u1) -> lazy c1 u1 = Ok tt ->
  exists c2 u2,
    execute_act (continuing l' c1 lazy) u1 dep' (m - n) check = Ok (c2, u2) /\
    execute_act_compiled l l' u dep m check = Ok (c2, u2).
Proof.
  intros Tr T T' B E L. unfold execute_act_compiled in E |- *.
  destruct (wrapped_make_controller check l u dep) as [[c|t]|] eqn:Mk; cbn [bind] in E |- *; try discriminate.
  destruct (l_setup_lazy l c u) as [[]|]; cbn [bind] in E |- *; [|discriminate].
  destruct (while_loop (run_layer_adapter check l') (into_jit c, jit_tree u, mkM 0 n)) as [[[cx ux] mx]|] eqn:X; cbn [bind] in E; [|discriminate].
  injection E as -> ->. unfold wrapped_make_controller in Mk.
  destruct (l_make_controller l u dep) as [mc|] eqn:M; cbn [bind] in Mk; [|discriminate].
  destruct (if check then validate_made mc else Ok tt) as [[]|] eqn:V; cbn [bind] in Mk; [|discriminate]. injection Mk as ->.
  assert (P0 := proj1 T _ _ _ M).
  assert (P : proper (into_jit c)).
  { destruct P0 as (A1 & A2 & A3). unfold proper, into_jit, move, move_dict, dkeys in *. cbn [defaults accumulators updates]. now rewrite !map_map. }
  destruct (loop_split check l' (into_jit c) (jit_tree u) n m c1 u1 mx Tr T' P B X) as [Y [[c2 u2] Z]].
  assert (K : (if check then validate_made (MCtrl c1) else Ok tt) = Ok tt).
  { destruct check; [|reflexivity]. rewrite loop_traced in X. destruct (traced true l' (into_jit c) (jit_tree u)) as [[]|] eqn:Td; [|discriminate].
    destruct (traced_again _ _ _ _ _ _ _ _ _ _ Tr T' P (Nat.le_refl _) Td X) as (_ & Lk & _).
    assert (Ln := F2_length _ _ _ (like_accumulators _ _ Lk)). cbn [canonical accumulators] in Ln.
    rewrite (Permutation.Permutation_length (sort_items_perm _)) in Ln. unfold into_jit, move, move_dict in Ln. cbn [accumulators] in Ln. rewrite map_length in Ln.
    cbn [validate_made] in V |- *. now rewrite Ln. }
  exists c2, u2. rewrite Z in Y. split.
  - unfold execute_act, wrapped_make_controller. cbn [continuing l_make_controller l_setup_lazy bind]. rewrite K. cbn [bind]. rewrite L. cbn [bind].
    change (run_layer_adapter check (continuing l' c1 lazy)) with (run_layer_adapter check l').
    destruct (while_loop (run_layer_adapter check l') (c1, u1, mkM 0 (m - n))) as [[[a b] k]|]; cbn in Y |- *; congruence.
  - destruct (while_loop (run_layer_adapter check l') (into_jit c, jit_tree u, mkM 0 m)) as [[[a b] k]|]; cbn in Z |- *; congruence.
Qed.
Print Assumptions C89_compiled_continued.
Theorem C89_compiled_spare_iterations (prec emax : Z) {Hp : Prec_gt_0 prec} {Hm : Prec_lt_emax prec emax}
  (l : layer (FloatNum prec emax)) (l' : layer (JitNum prec emax)) u dep n m check c1 u1 :
  (n <= m)%Z -> execute_act_compiled l l' u dep n check = Ok (c1, u1) -> all_halted c1 ->
  execute_act_compiled l l' u dep m check = Ok (c1, u1).
Proof.
  intros B E H. apply all_halted_iff in H. unfold execute_act_compiled in E |- *.
  destruct (wrapped_make_controller check l u dep) as [[c|t]|]; cbn [bind] in E |- *; try discriminate.
  destruct (l_setup_lazy l c u) as [[]|]; cbn [bind] in E |- *; [|discriminate].
  destruct (while_loop (run_layer_adapter check l') (into_jit c, jit_tree u, mkM 0 n)) as [[[cx ux] mx]|] eqn:X; cbn [bind] in E; [|discriminate].
  injection E as -> ->. assert (Y := loop_spare check l' (into_jit c) (jit_tree u) n m c1 u1 mx B X H).
  destruct (while_loop (run_layer_adapter check l') (into_jit c, jit_tree u, mkM 0 m)) as [[[a b] k]|]; cbn in Y |- *; congruence.
Qed.
Print Assumptions C89_compiled_spare_iterations.
(** In IEEE arithmetic too, bit for bit. *)
Theorem C89_float_halted_elements_are_final (prec emax : Z) {Hp : Prec_gt_0 prec} {Hm : Prec_lt_emax prec emax}
  (c : state (FloatNum prec emax)) next upd halt lazy init dep n m check c1 u1 c2 u2 b :
  (2 <= prec)%Z -> eps_ok (epsilon c) -> dep_ok prec emax (depression_constant c) -> wf c -> fresh c ->
  (forall k, step_fits c (upd (nth_state next k init)) (halt (nth_state next k init))) ->
  (forall k, Forall not_nan (a_data (halt (nth_state next k init)))) -> (n <= m)%Z ->
  execute_act (simple_layer c next upd halt lazy) init dep n check = Ok (c1, u1) ->
  execute_act (simple_layer c next upd halt lazy) init dep m check = Ok (c2, u2) ->
  halted c1 b = Some true -> same_element b c1 c2 /\ halted c2 b = Some true.
Proof.
  intros H2 He Hd W F Fi Nn B. apply finished_core; auto. intros i j Hh. split; [now apply float_loop_frozen|].
  rewrite loop_calls_split, run_app. assert (P := Samples.fresh_wf_pending _ F).
  assert (K : forall m, Forall call_wf (loop_calls next upd halt m init)) by (intros k; eapply calls_of_wf; eauto).
  assert (NN := fun m => loop_no_nan next upd halt m init Nn).
  destruct (run_wf c _ W P (K i)) as [W' P']. assert (Fr := run_frame c _ W P (K i)).
  apply C04_float_halting_is_permanent; auto.
  - specialize (K (i + j)). rewrite loop_calls_split in K. now apply Forall_app in K.
  - specialize (NN (i + j)). rewrite loop_calls_split in NN. now apply Forall_app in NN.
  - apply loop_no_reset.
  - now rewrite (sf_eps _ _ Fr).
  - now rewrite (sf_dep _ _ Fr).
  - apply run_unit; auto. now apply fresh_unit.
Qed.
Print Assumptions C89_float_halted_elements_are_final.
(** The compiled execution of C86's case, stopped after two iterations (one element has halted, the other
    stands at 2/3) and continued. *)
Definition tracedI : layer J32 := simple_layer (into_jit c09) (fun u => u) updI (haltI (jit_array (arr32 [2] []))) (fun _ _ => Ok tt).
Definition continuedI (k : Z) := '(c, u) <- compiledI 2 true ;; execute_act (continuing tracedI c (fun _ _ => Ok tt)) u (depression_constant c) k true.
Example C89_float_case : traceable tracedI /\ layer_typed tracedI /\
  match compiledI 2 true, continuedI 48, compiledI 50 true with
  | Ok (c, _), Ok (c', _), Ok (c2, _) =>
      bitsJ (iterations c) = [B2SF (f32 1 1); B2SF (f32 2 1)] /\ bitsJ (probabilities c) = [B2SF (f32 1 1); B2SF (f32 2 3)] /\
      bitsJ (iterations c') = [B2SF (f32 1 1); B2SF (f32 3 1)] /\ bitsJ (iterations c2) = bitsJ (iterations c') /\
      bitsJ (probabilities c') = [B2SF (f32 1 1); B2SF (f32 1 1)] /\ bitsJ (probabilities c2) = bitsJ (probabilities c')
  | _, _, _ => False
  end.
Proof.
  split; [|split].
  - apply C74_docstring_layers; auto.
    + apply like_refl.
    + intros u u' U. constructor; [split; [reflexivity|exact U]|constructor].
    + intros u u' [E F]. destruct u as [a|n cs], u' as [a'|n' cs']; cbn in E; try discriminate; cbn [haltI]; [|apply like_array_refl].
      inversion F; assumption.
    + intros. exact I.
  - apply simple_typed. repeat constructor; cbn; tauto.
  - vm_compute. repeat (split; [reflexivity|]). reflexivity.
Qed.
