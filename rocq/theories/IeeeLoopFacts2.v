(** * Facts: from the calls of a docstring layer to execute_act, eager and compiled (for PropsIeeeLoop.v). *)
From Coq Require Import ZArith Reals Lia Lra Psatz.
From Flocq Require Import Core BinarySingleNaN.
From Verif Require Import Base PyTree Tensor Num FloatNum FloatSpec Utils States Controller Builder Layers
  Wf Spec History ElementSpec ScalarSpec BuilderSpec StateSpec LayerSpec Jit JitSpec IeeeLoopSpec.
From Verif Require Import BaseFacts PyTreeFacts ControllerFacts IterateFacts HistoryFacts AgreeFacts GravesFacts ExactFacts ElementFacts StateFacts LayerFacts LayerFacts2 LayerFacts3 LayerFacts4 LoopFacts
  ScalarFacts ScriptFacts FloatFacts FloatFacts2 FloatFacts3 FloatFacts4 FloatFacts5 MoveFacts JitFacts IeeeLoopFacts.
From Verif Require Import PropsController PropsScalar PropsFloat PropsRounding PropsLoopFloat PropsJit.
Close Scope R_scope. Close Scope Z_scope. Open Scope string_scope. Open Scope list_scope. Open Scope nat_scope.

(** ** Well-formedness of moved controllers *)
Section Moved.
  Context {N M : numsys} (f : val N -> val M) (g : scl N -> scl M).
  Lemma awf_move a : awf a -> awf (move_array f a).
  Proof. unfold awf, twf, move_array, tensor_map, a_shape. cbn. now rewrite map_length. Qed.
  Lemma keys_move (d : dict (tree (array N))) : dkeys (move_dict f d) = dkeys d.
  Proof. unfold dkeys, move_dict. now rewrite map_map. Qed.
  Lemma dget_move k (d : dict (tree (array N))) : dget k (move_dict f d) = option_map (move_tree f) (dget k d).
  Proof. induction d as [|[k' t] d IH]; [reflexivity|]. cbn [move_dict map dget fst snd]. destruct (String.eqb k k'); [reflexivity|exact IH]. Qed.
  Lemma dget_move_inv k (d : dict (tree (array N))) t' : dget k (move_dict f d) = Some t' -> exists t, dget k d = Some t /\ t' = move_tree f t.
  Proof. rewrite dget_move. destruct (dget k d) as [t|]; [|discriminate]. cbn. intros [= <-]. eauto. Qed.
  Lemma leaves_move (t : tree (array N)) : leaves (move_tree f t) = map (move_array f) (leaves t).
  Proof. apply leaves_tmap. Qed.
  Lemma structure_move (t : tree (array N)) : structure (move_tree f t) = structure t.
  Proof. apply structure_tmap. Qed.
  Lemma sigs_move (t : tree (array N)) : map sig (leaves (move_tree f t)) = map sig (leaves t).
  Proof. rewrite leaves_move, map_map. reflexivity. Qed.
  Lemma awf_leaves_move (t : tree (array N)) : Forall awf (leaves t) -> Forall awf (leaves (move_tree f t)).
  Proof. rewrite leaves_move. intros H. apply Forall_map. revert H. apply Forall_impl. apply awf_move. Qed.
  Lemma none_move (t : tree (array N)) : is_none (move_tree f t) = is_none t.
  Proof. destruct t as [a|k [|c cs]]; [reflexivity|destruct k; reflexivity|destruct k; reflexivity]. Qed.
  Lemma move_wf (s : state N) : wf s -> wf (move f g s).
  Proof.
    intros []. constructor; cbn [move probabilities residuals iterations accumulators defaults updates]; try (apply awf_move; assumption);
      try (rewrite !keys_move; assumption); try assumption.
    - intros k t' H. apply dget_move_inv in H as (t & Ht & ->). rewrite leaves_move. apply Forall_map. specialize (wf_acc k t Ht). revert wf_acc. apply Forall_impl.
      intros a (A & B & C). split; [now apply awf_move|]. split; [exact B|exact C].
    - intros k t' d' H H'. apply dget_move_inv in H as (t & Ht & ->). apply dget_move_inv in H' as (d & Hd & ->). destruct (wf_def k t d Ht Hd) as [[A B] C].
      split; [|now apply awf_leaves_move]. split; [now rewrite !structure_move|now rewrite !sigs_move].
  Qed.
  Lemma move_fits (s : state N) upds h : step_fits s upds h -> step_fits (move f g s) (move_dict f upds) (move_array f h).
  Proof.
    intros (A & B & C & D & E & G). unfold step_fits. rewrite keys_move. split; [exact A|]. cbn [move accumulators]. split; [intros k; rewrite keys_move; apply B|].
    split; [|split; [now apply awf_move|split; [exact E|exact G]]].
    intros k t' v' H H'. apply dget_move_inv in H as (t & Ht & ->). apply dget_move_inv in H' as (v & Hv & ->). destruct (C k t v Ht Hv) as (C1 & C2 & C3).
    split; [now rewrite none_move|]. split; [now apply awf_leaves_move|]. rewrite !leaves_move. revert C3. apply F2_map. intros a b X. exact X.
  Qed.
End Moved.

Section Loops.
  Context {prec emax : Z} {Hp : Prec_gt_0 prec} {Hm : Prec_lt_emax prec emax}.
  Notation F := (FloatNum prec emax).
  Notation J := (JitNum prec emax).
  Notation bf := (binary_float prec emax).
  Notation tr := (tree (array F)).
  Notation id_bits := (fun x : bf => x).

  (** ** Reading the results off an equal state *)
  Lemma statistics_same (T d : bf) next halt init n (c c' : state F) i : same_state c' c ->
    statistics_accurate (N := F) (fun x => x) T d next halt init n c i -> statistics_accurate (N := F) (fun x => x) T d next halt init n c' i.
  Proof.
    intros S (p & r & k & (E1 & E2 & E3) & X). exists p, r, k. unfold element. rewrite (ss_p _ _ S), (ss_r _ _ S), (ss_i _ _ S).
    split; [repeat split; assumption|]. unfold halted_now in *. rewrite (halted_same _ _ (same_state_sym _ _ S)). exact X.
  Qed.
  Lemma accumulators_same (T d : bf) next upd halt init c0 n (c c' : state F) i : same_state c' c ->
    accumulators_accurate (N := F) (fun x => x) T d next upd halt init c0 n c i -> accumulators_accurate (N := F) (fun x => x) T d next upd halt init c0 n c' i.
  Proof. intros S X name t. rewrite (ss_acc _ _ S name). apply X. Qed.

  (** ** The same numbers, as compiled code holds them *)
  Lemma jit_data (a : array F) j : nth_error (a_data (jit_array a)) j = nth_error (a_data a) j.
  Proof. unfold jit_array, move_array, tensor_map, a_data. cbn. now rewrite map_id. Qed.
  Lemma statistics_jit (T d : bf) next halt init n (x : state F) (c' : state J) (e' d' : scl J) i :
    same_state c' (with_settings (into_jit x) e' d') -> halted_batches c' = halted_batches x ->
    statistics_accurate (N := F) (fun x => x) T d next halt init n x i -> statistics_accurate (N := J) (fun x => x) T d next halt init n c' i.
  Proof.
    intros S Hb (p & r & k & (E1 & E2 & E3) & X). exists p, r, k. unfold element.
    assert (Pp : probabilities c' = jit_array (probabilities x)) by exact (ss_p _ _ S).
    assert (Pr : residuals c' = jit_array (residuals x)) by exact (ss_r _ _ S).
    assert (Pi : iterations c' = jit_array (iterations x)) by exact (ss_i _ _ S).
    rewrite Pp, Pr, Pi. split; [repeat split; (etransitivity; [apply jit_data|assumption])|]. unfold halted_now in *. rewrite Hb. exact X.
  Qed.
  Lemma accumulators_jit (T d : bf) next upd halt init c0 n (x : state F) (c' : state J) (e' d' : scl J) i :
    same_state c' (with_settings (into_jit x) e' d') ->
    accumulators_accurate (N := F) (fun x => x) T d next upd halt init c0 n x i -> accumulators_accurate (N := J) (fun x => x) T d next upd halt init c0 n c' i.
  Proof.
    intros S X name t' df l a' dl R j av dv Ht Hdf Ha Hdl Hsh Hj Hav Hdv. rewrite (ss_acc _ _ S name) in Ht.
    apply dget_move_inv in Ht as (t & Ht & ->). rewrite leaves_move in Ha. rewrite nth_error_map in Ha.
    destruct (nth_error (leaves t) l) as [a|] eqn:Ea; [|discriminate]. injection Ha as <-.
    assert (Hav' : nth_error (a_data a) j = Some (av : val F)) by (rewrite <- (jit_data a j); exact Hav).
    exact (X name t df l a dl R j av dv Ht Hdf Ea Hdl Hsh Hj Hav' Hdv).
  Qed.

  (** ** Traced loops *)
  Context (next : tr -> tr) (upd : tr -> dict tr) (halt : tr -> array F)
    (next' : tree (array J) -> tree (array J)) (upd' : tree (array J) -> dict (tree (array J))) (halt' : tree (array J) -> array J)
    (TA : traces_as next upd halt next' upd' halt').
  Lemma traced_states n : forall u, nth_state next' n (jit_tree u) = jit_tree (nth_state next n u).
  Proof. induction n as [|n IH]; intros u; [reflexivity|]. cbn [nth_state]. rewrite (proj1 (TA u)). apply IH. Qed.
  Lemma traced_calls n : forall u, loop_calls next' upd' halt' n (jit_tree u) = map jit_call (loop_calls next upd halt n u).
  Proof.
    induction n as [|n IH]; intros u; [reflexivity|]. cbn [loop_calls]. destruct (TA u) as (A & B & C). rewrite map_app, A, IH. f_equal.
    unfold simple_calls. rewrite B, C, map_app, !map_map. reflexivity.
  Qed.

  Context (c0 : state F) (lazy : state F -> tr -> res unit) (lazy' : state J -> tree (array J) -> res unit) (init : tr) (dep : pyfloat) (bound : Z) (check : bool).
  Notation l := (simple_layer c0 next upd halt lazy).
  Notation l' := (simple_layer (into_jit c0) next' upd' halt' (fun _ _ => Ok tt)).
  Lemma validate_jit : validate_made (MCtrl (into_jit c0)) = validate_made (MCtrl c0).
  Proof. cbn. destruct (accumulators c0); reflexivity. Qed.
  Lemma compiled_executes :
    execute_act_compiled l (simple_layer (into_jit c0) next' upd' halt' lazy') init dep bound check =
    match (if check then validate_made (MCtrl c0) else Ok tt) with
    | Ok _ => match lazy c0 init with Ok _ => execute_act l' (jit_tree init) (trace_scalar dep : scl J) bound check | Err e => Err e end
    | Err e => Err e
    end.
  Proof.
    unfold execute_act_compiled, execute_act, wrapped_make_controller. cbn [simple_layer l_make_controller bind].
    assert (V : (if check then validate_made (MCtrl (into_jit c0)) else Ok tt) = (if check then validate_made (MCtrl c0) else Ok tt)) by (destruct check; [apply validate_jit|reflexivity]).
    rewrite V. destruct (if check then validate_made (MCtrl c0) else Ok tt) as [[]|e]; cbn [bind]; [|reflexivity].
    change (l_setup_lazy l c0 init) with (lazy c0 init). change (l_setup_lazy l' (into_jit c0) (jit_tree init)) with (Ok tt : res unit).
    destruct (lazy c0 init) as [[]|e]; reflexivity.
  Qed.
  Lemma compiled_is_execution c' u' :
    execute_act_compiled l (simple_layer (into_jit c0) next' upd' halt' lazy') init dep bound check = Ok (c', u') ->
    execute_act l' (jit_tree init) (trace_scalar dep : scl J) bound check = Ok (c', u').
  Proof.
    rewrite compiled_executes. destruct (if check then validate_made (MCtrl c0) else Ok tt); [|discriminate]. destruct (lazy c0 init); [auto|discriminate].
  Qed.
  Lemma compiled_returns : wf c0 -> fresh c0 -> accumulators c0 <> [] -> error_mode c0 = None -> lazy c0 init = Ok tt ->
    (forall k, step_fits c0 (upd (nth_state next k init)) (halt (nth_state next k init))) ->
    abstract_user (next init) = abstract_user init ->
    exists c' u', execute_act_compiled l (simple_layer (into_jit c0) next' upd' halt' lazy') init dep bound check = Ok (c', u').
  Proof.
    intros W Fr Ne Em Hl Fi Au. rewrite compiled_executes, Hl. assert (V : (if check then validate_made (MCtrl c0) else Ok tt) = Ok tt).
    { destruct check; [|reflexivity]. cbn. destruct (accumulators c0); [contradiction|reflexivity]. }
    rewrite V. apply simple_returns.
    - now apply move_wf.
    - intros k u H. apply dget_move_inv in H as (t & Ht & ->). apply awf_leaves_move. eapply Samples.fresh_wf_pending; eauto.
    - intros k u H. apply dget_move_inv in H as (t & Ht & ->). destruct Fr as (_ & _ & _ & _ & A). now rewrite (A k t Ht).
    - cbn. destruct (accumulators c0); [contradiction|discriminate].
    - exact Em.
    - reflexivity.
    - intros k. rewrite traced_states. destruct (TA (nth_state next k init)) as (_ & B & C). rewrite B, C. apply (move_fits (N := F) (M := J) id_bits trace_scalar). apply Fi.
    - rewrite (proj1 (TA init)). unfold abstract_user in *. unfold jit_tree. rewrite !leaves_move, !structure_move, !map_map. exact Au.
  Qed.
  (** With other settings, the calls of the eager controller. *)
  Lemma all_halted_elements (N : numsys) (s : state N) : all_halted s -> forall i b, nth_error (data (halted_batches s)) i = Some b -> b = true.
  Proof.
    intros A i b H. unfold halted_batches, gt_scl in H. cbn [tensor_map data] in H. rewrite nth_error_map in H.
    destruct (nth_error _ i) as [p|] eqn:E; [|discriminate]. cbn in H. injection H as <-. apply A. eapply nth_error_In; eauto.
  Qed.
End Loops.
