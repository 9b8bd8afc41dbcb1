(** * Batching is transparent to execute_act in IEEE-754 arithmetic too, bit for bit (C72). *)
From Coq Require Import ZArith Reals Lia Lra.
From Flocq Require Import Core BinarySingleNaN.
From Verif Require Import Base PyTree Tensor Num FloatNum FloatSpec Utils States Controller Builder Layers
  Wf Spec History ElementSpec BuilderSpec StateSpec LayerSpec SliceSpec LoopSpec.
From Verif Require Import BaseFacts ControllerFacts IterateFacts HistoryFacts BuilderFacts StateFacts LayerFacts LayerFacts3 LayerFacts4 SliceFacts LoopFacts FloatFacts FloatFacts2 FloatFacts3 FloatFacts4.
From Verif Require Import PropsController PropsFloat.
Close Scope R_scope. Close Scope Z_scope. Open Scope string_scope. Open Scope list_scope. Open Scope nat_scope.

Lemma loop_no_nan {prec emax : Z} {Hp : Prec_gt_0 prec} {Hm : Prec_lt_emax prec emax} next upd halt n : forall init,
  (forall k, Forall not_nan (a_data (halt (nth_state next k init)))) ->
  Forall (no_nan (prec := prec) (emax := emax)) (loop_calls next upd halt n init).
Proof.
  induction n as [|n IH]; intros init H; cbn [loop_calls]; [constructor|]. apply Forall_app. split; [|apply IH; intros k; exact (H (S k))].
  unfold simple_calls. apply Forall_app. split; [|repeat constructor; exact (H 0)]. apply Forall_forall. intros x Hx.
  apply in_map_iff in Hx as (kv & <- & _). exact I.
Qed.
Lemma float_loop_frozen {prec emax : Z} {Hp : Prec_gt_0 prec} {Hm : Prec_lt_emax prec emax} (c : state (FloatNum prec emax)) next upd halt init b :
  (2 <= prec)%Z -> eps_ok (epsilon c) -> dep_ok prec emax (depression_constant c) -> wf c -> fresh c ->
  (forall k, step_fits c (upd (nth_state next k init)) (halt (nth_state next k init))) ->
  (forall k, Forall not_nan (a_data (halt (nth_state next k init)))) ->
  forall n m, halted (run c (loop_calls next upd halt n init)) b = Some true ->
  same_element b (run c (loop_calls next upd halt n init)) (run c (loop_calls next upd halt (n + m) init)).
Proof.
  intros H2 He Hd W F Fi Nn n m Hh. rewrite loop_calls_split, run_app.
  assert (K : forall m, Forall call_wf (loop_calls next upd halt m init)) by (intros k; eapply calls_of_wf; eauto).
  assert (P := Samples.fresh_wf_pending _ F).
  destruct (run_wf c _ W P (K n)) as [W' P']. assert (Fr := run_frame c _ W P (K n)).
  assert (NN := fun m => loop_no_nan next upd halt m init Nn).
  apply C03_float_frozen_forever; auto.
  - specialize (K (n + m)). rewrite loop_calls_split in K. now apply Forall_app in K.
  - specialize (NN (n + m)). rewrite loop_calls_split in NN. now apply Forall_app in NN.
  - apply loop_no_reset.
  - now rewrite (sf_eps _ _ Fr).
  - now rewrite (sf_dep _ _ Fr).
  - apply run_unit; auto. now apply fresh_unit.
Qed.
Theorem C72_float_execution_is_batching_transparent (prec emax : Z) {Hp : Prec_gt_0 prec} {Hm : Prec_lt_emax prec emax}
  (c1 : state (FloatNum prec emax)) next1 upd1 halt1 lazy1 init1 dep1 check1 c1' u1'
  (c2 : state (FloatNum prec emax)) next2 upd2 halt2 lazy2 init2 dep2 check2 c2' u2' b1 b2 bound :
  (2 <= prec)%Z -> eps_ok (epsilon c1) -> dep_ok prec emax (depression_constant c1) ->
  wf c1 -> fresh c1 -> wf c2 -> fresh c2 ->
  (forall k, step_fits c1 (upd1 (nth_state next1 k init1)) (halt1 (nth_state next1 k init1))) ->
  (forall k, step_fits c2 (upd2 (nth_state next2 k init2)) (halt2 (nth_state next2 k init2))) ->
  (forall k, Forall not_nan (a_data (halt1 (nth_state next1 k init1)))) ->
  (forall k, Forall not_nan (a_data (halt2 (nth_state next2 k init2)))) ->
  same_rows b1 c1 b2 c2 ->
  same_inputs (batch_shape c1) b1 next1 upd1 halt1 init1 (batch_shape c2) b2 next2 upd2 halt2 init2 ->
  execute_act (simple_layer c1 next1 upd1 halt1 lazy1) init1 dep1 bound check1 = Ok (c1', u1') ->
  execute_act (simple_layer c2 next2 upd2 halt2 lazy2) init2 dep2 bound check2 = Ok (c2', u2') ->
  same_results b1 c1' b2 c2'.
Proof.
  intros H2 He Hd W1 F1 W2 F2 Fi1 Fi2 N1 N2 SR SI E1 E2.
  assert (Z1 := float_loop_frozen _ _ _ _ _ b1 H2 He Hd W1 F1 Fi1 N1).
  rewrite (sr_eps _ _ _ _ SR) in He. rewrite (sr_dep _ _ _ _ SR) in Hd. assert (Z2 := float_loop_frozen _ _ _ _ _ b2 H2 He Hd W2 F2 Fi2 N2).
  exact (executions_agree_bound _ _ _ _ _ _ _ _ _ _ _ _ W1 F1 W2 F2 Fi1 Fi2 SR SI Z1 Z2 _ _ _ _ _ _ _ _ _ _ _ _ E1 E2 eq_refl).
Qed.
Print Assumptions C72_float_execution_is_batching_transparent.

(** float32, epsilon 1/10: element 0 with two different neighbours *)
Definition c32 : state N32 := ctl32 (py_div 1 10).
Definition idU (u : tree (array N32)) : tree (array N32) := u.
Definition updF (u : tree (array N32)) : dict (tree (array N32)) := [("x", Leaf (arr32 [2] [f32 1 7; f32 2 1]))].
Definition haltF (u : tree (array N32)) : array N32 := match u with Leaf a => a | _ => arr32 [2] [f32 0 1; f32 0 1] end.
Definition layF : layer N32 := simple_layer c32 idU updF haltF (fun _ _ => Ok tt).
Definition initF (z : val N32) : tree (array N32) := Leaf (arr32 [2] [f32 1 3; z]).
Lemma idU_all k u : nth_state idU k u = u.
Proof. induction k as [|k IH]; [reflexivity|exact IH]. Qed.
Lemma layF_fits z k : step_fits c32 (updF (nth_state idU k (initF z))) (haltF (nth_state idU k (initF z))).
Proof.
  rewrite idU_all. split; [repeat constructor; cbn; tauto|]. split; [intros x; change (dkeys (accumulators c32)) with ["x"]; reflexivity|].
  split; [|repeat split]. intros x t v Ht Hv. cbn [updF dget] in Hv. destruct (String.eqb_spec x "x") as [->|]; [|discriminate].
  injection Hv as <-. change (Some (Leaf (arr32 [2] [f32 0 1; f32 0 1])) = Some t) in Ht. apply GravesFacts.Some_inj in Ht. subst t.
  split; [reflexivity|]. split; repeat constructor.
Qed.
Definition bits_of (r : res (state N32 * tree (array N32))) : list (list SpecFloat.spec_float) :=
  match r with
  | Ok (c, _) => [bits (residuals c); bits (iterations c)] ++ concat (map (fun kv : string * tree (array N32) => map bits (leaves (snd kv))) (accumulators c))
  | Err _ => []
  end.
Example C72_float_case : eps_ok (epsilon c32) /\ dep_ok 24 128 (depression_constant c32) /\ wf c32 /\ fresh c32 /\
  (forall z k, step_fits c32 (updF (nth_state idU k (initF z))) (haltF (nth_state idU k (initF z)))) /\
  (forall k, Forall not_nan (a_data (haltF (nth_state idU k (initF (f32 1 10)))))) /\
  (forall k, Forall not_nan (a_data (haltF (nth_state idU k (initF (f32 9 10)))))) /\
  same_rows 0 c32 0 c32 /\
  same_inputs [2] 0 idU updF haltF (initF (f32 1 10)) [2] 0 idU updF haltF (initF (f32 9 10)) /\
  (* the first loop makes nine iterations, the second three *)
  map (@List.length _) (bits_of (execute_act layF (initF (f32 1 10)) (py_div 1 1) 50 true)) = [2; 2; 2] /\
  nth 1 (bits_of (execute_act layF (initF (f32 1 10)) (py_div 1 1) 50 true)) [] = [B2SF (f32 3 1); B2SF (f32 9 1)] /\
  nth 1 (bits_of (execute_act layF (initF (f32 9 10)) (py_div 1 1) 50 true)) [] = [B2SF (f32 3 1); B2SF (f32 2 1)].
Proof.
  assert (Se : BuilderFacts.eps_sane (N := N32) (py_div 1 10)) by (split; vm_compute; reflexivity).
  destruct (ctl32_ok _ Se) as (W & F & P). fold c32 in W, F, P.
  split; [apply unit_by_computation; vm_compute; reflexivity|].
  split; [split; [vm_compute; reflexivity|apply (leb_real (f_zero (prec := 24) (emax := 128))); vm_compute; reflexivity]|].
  split; [exact W|]. split; [exact F|]. split; [exact layF_fits|].
  split; [intros k; rewrite idU_all; repeat constructor; vm_compute; reflexivity|].
  split; [intros k; rewrite idU_all; repeat constructor; vm_compute; reflexivity|].
  assert (RR : forall (a a' : array N32), a_shape a = [2] -> a_shape a' = [2] -> a_dt a = a_dt a' -> nth_error (a_data a) 0 = nth_error (a_data a') 0 -> same_row [2] 0 [2] 0 a a').
  { intros a a' S S' D E. exists []. repeat split; auto. intros j Hj. cbn in Hj. assert (j = 0) by lia. now subst j. }
  split.
  { assert (D : forall d, (forall k t, dget k d = Some t -> t = tnone \/ t = Leaf (arr32 [2] [f32 0 1; f32 0 1])) -> same_row_dict [2] 0 [2] 0 d d).
    { intros d H. split; [reflexivity|]. intros k t1 t2 H1 H2. assert (t1 = t2) by congruence. subst t2. split; [reflexivity|].
      destruct (H k t1 H1) as [ -> | -> ]; [constructor|]. constructor; [|constructor]. now apply RR. }
    change (accumulators c32) with [("x", Leaf (arr32 [2] [f32 0 1; f32 0 1]))].
    constructor; change (batch_shape c32) with [2]; auto; try (cbn; lia); try (apply RR; reflexivity); apply D; intros k t H.
    - right. change (accumulators c32) with [("x", Leaf (arr32 [2] [f32 0 1; f32 0 1]))] in H. cbn [dget] in H. destruct (String.eqb k "x"); congruence.
    - right. change (defaults c32) with [("x", Leaf (arr32 [2] [f32 0 1; f32 0 1]))] in H. cbn [dget] in H. destruct (String.eqb k "x"); congruence.
    - left. destruct F as (_ & _ & _ & _ & F). eauto. }
  split.
  { intros k. rewrite !idU_all. split; [now apply RR|]. split; [reflexivity|]. intros x t1 t2 H1 H2. assert (t1 = t2) by (unfold updF in *; congruence). subst t2.
    cbn [updF dget] in H1. destruct (String.eqb x "x"); [|discriminate]. injection H1 as <-. split; [reflexivity|]. constructor; [|constructor]. now apply RR. }
  split; [|split]; vm_compute; reflexivity.
Qed.
