(** * Properties of the controller (C01, C03 - C20): statements, and cases that meet the hypotheses.

    Vocabulary: Wf.v (well-formed states), Spec.v (Graves' ACT for one batch element), History.v
    (call sequences). [run s cs] is the controller a user holds after the calls [cs], where a call
    that raises leaves the user with the controller they had. *)
From Coq Require Import QArith Qcanon Permutation.
From Verif Require Import Base PyTree Tensor Num Utils States Controller Builder Wf Spec History ElementSpec BuilderSpec.
From Verif Require Import BaseFacts ControllerFacts IterateFacts ResetFacts HistoryFacts
  AgreeFacts QcFacts SpecFacts GravesFacts ExactFacts ExactFacts2 StepFacts DepFacts BuilderFacts Samples.
Close Scope Qc_scope. Close Scope Q_scope. Open Scope string_scope. Open Scope list_scope. Open Scope nat_scope.

(** the exception a call raises *)
Definition raises {A} (r : res A) : option exn := match r with Err e => Some e | Ok _ => None end.
Ltac vm := vm_compute; reflexivity.
Ltac cq := unfold Qcle, Qclt; vm_compute; (reflexivity || discriminate).
Notation "a .[ i ]" := (nth_error (a_data a) i) (at level 2, left associativity, format "a .[ i ]").
(** [halted s i]: element [i] of [controller.halted_batches] *)
Definition halted {N} (s : state N) (i : nat) : option bool := nth_error (data (halted_batches s)) i.

(** ** C01 *)
Theorem C01_probability_invariant (s : st) (cs : list (call QcNum)) :
  wf s -> wf_pending s -> Forall call_wf cs ->
  (0 <= epsilon s)%Qc -> (0 <= depression_constant s)%Qc ->
  (forall i p, (probabilities s).[i] = Some p -> (0 <= p /\ p <= 1)%Qc) ->
  (forall i p, (probabilities (run s cs)).[i] = Some p -> (0 <= p /\ p <= 1)%Qc) /\
  (forall c i p p', call_wf c -> (probabilities (run s cs)).[i] = Some p ->
     (probabilities (run s (cs ++ [c]))).[i] = Some p' ->
     (p <= p')%Qc \/ (c = CReset /\ halted (run s cs) i = Some true /\ p' = 0%Qc)).
Proof.
  intros W P F E D R. split; [exact (run_range s cs W P F E D R)|].
  intros c i p p' Hc. exact (run_monotone s cs c W P F Hc E D R i p p').
Qed.
Print Assumptions C01_probability_invariant.
Lemma ctl1_range : forall i p, (probabilities ctl1).[i] = Some p -> (0 <= p /\ p <= 1)%Qc.
Proof. intros i p H. destruct ctl1_ok as [_ [F _]]. rewrite Forall_forall in F. apply nth_error_In in H.
  rewrite <- (F _ H). split; cq. Qed.
Example C01_case : wf ctl1 /\ wf_pending ctl1 /\ Forall call_wf calls1 /\ (0 <= epsilon ctl1)%Qc /\
  (0 <= depression_constant ctl1)%Qc /\ (forall i p, (probabilities ctl1).[i] = Some p -> (0 <= p /\ p <= 1)%Qc) /\
  map this (a_data (probabilities (run ctl1 calls1))) = [1 # 3; 1 # 1]%Q /\
  length (returned ctl1 calls1) = 7 /\ halted (run ctl1 (firstn 5 calls1)) 0 = Some true.
Proof.
  destruct ctl1_ok as [W F]. split; [exact W|]. split; [exact (fresh_wf_pending _ F)|].
  split; [exact calls1_wf|]. split; [cq|]. split; [cq|]. split; [exact ctl1_range|].
  vm_compute. repeat split; reflexivity.
Qed.

(** ** C03: one step, and any sequence without reset, for every arithmetic *)
Theorem C03_halted_elements_frozen {N} (s : state N) h s' b :
  wf s -> wf_pending s -> awf h -> iterate_act s h = Ok s' -> halted s b = Some true ->
  (residuals s').[b] = (residuals s).[b] /\
  (iterations s').[b] = (iterations s).[b] /\
  forall k t t', dget k (accumulators s) = Some t -> dget k (accumulators s') = Some t' ->
    forall l a a', nth_error (leaves t) l = Some a -> nth_error (leaves t') l = Some a' ->
      forall R, a_shape a = batch_shape s ++ R ->
      forall j, j / size R = b -> a'.[j] = a.[j].
Proof.
  intros W P A H Hb. apply halted_get_inv in Hb as (p & Hp & Hh). symmetry in Hh.
  exact (iterate_frozen s h s' b p W P A H Hp Hh).
Qed.
Print Assumptions C03_halted_elements_frozen.
(** over histories, exact arithmetic *)
Theorem C03_halted_elements_frozen_forever (s : st) cs b :
  wf s -> wf_pending s -> Forall call_wf cs -> Forall (fun c => c <> CReset) cs ->
  (0 < epsilon s)%Qc -> (0 <= depression_constant s)%Qc -> halted s b = Some true ->
  same_element b s (run s cs).
Proof.
  intros W P F G E D H. apply halted_get_inv in H as (p & Hp & Hh). symmetry in Hh.
  apply (run_frozen (fun _ => True) s cs b p); auto.
  - intros x v _ Hx. exact (proj2 (next_p_halted s x v E D Hx)).
  - eapply Forall_impl; [|exact G]. intros [name item|h|] Hc; auto. apply Forall_forall. auto.
Qed.
Print Assumptions C03_halted_elements_frozen_forever.
Definition mid2 : st := run ctl2 (firstn 8 calls2).
Definition end2 : st := run ctl2 (firstn 10 calls2).
Lemma mid2_ok : wf mid2 /\ wf_pending mid2.
Proof. destruct ctl2_ok as [W F]. apply run_wf; auto using fresh_wf_pending. repeat constructor. Qed.
Lemma end2_ok : wf end2 /\ wf_pending end2.
Proof. destruct ctl2_ok as [W F]. apply run_wf; auto using fresh_wf_pending. repeat constructor. Qed.
Example C03_case : wf end2 /\ wf_pending end2 /\ awf (hp (q 1 2) (q 9 10)) /\
  is_ok (iterate_act end2 (hp (q 1 2) (q 9 10))) = true /\
  halted end2 0 = Some true /\
  halted end2 1 = Some false /\ dkeys (accumulators end2) = ["x"; "y"].
Proof.
  destruct end2_ok as [W P]. split; [exact W|]. split; [exact P|]. split; [reflexivity|].
  repeat split; vm.
Qed.
Example C03_history_case : wf mid2 /\ wf_pending mid2 /\ Forall call_wf (skipn 8 calls2) /\
  Forall (fun c => c <> CReset) (skipn 8 calls2) /\ (0 < epsilon mid2)%Qc /\
  (0 <= depression_constant mid2)%Qc /\ halted mid2 0 = Some true /\
  length (returned mid2 (skipn 8 calls2)) = 3.
Proof.
  destruct mid2_ok as [W P]. split; [exact W|]. split; [exact P|]. split; [repeat constructor|].
  split; [repeat constructor; discriminate|]. split; [cq|]. split; [cq|]. split; vm.
Qed.

(** ** C04 *)
Theorem C04_halting_is_permanent (s : st) cs i :
  wf s -> wf_pending s -> Forall call_wf cs -> Forall (fun c => c <> CReset) cs ->
  (0 < epsilon s)%Qc -> (0 <= depression_constant s)%Qc ->
  halted s i = Some true -> halted (run s cs) i = Some true.
Proof. exact (run_halted s cs i). Qed.
Print Assumptions C04_halting_is_permanent.
Example C04_case : wf mid2 /\ wf_pending mid2 /\ Forall call_wf (skipn 8 calls2) /\
  Forall (fun c => c <> CReset) (skipn 8 calls2) /\ (0 < epsilon mid2)%Qc /\
  (0 <= depression_constant mid2)%Qc /\ halted mid2 0 = Some true /\ halted mid2 1 = Some false /\
  halted (run mid2 (skipn 8 calls2)) 1 = Some true.
Proof.
  destruct mid2_ok as [W P]. split; [exact W|]. split; [exact P|]. split; [repeat constructor|].
  split; [repeat constructor; discriminate|]. split; [cq|]. split; [cq|]. repeat split; vm.
Qed.

(** ** C05 *)
Theorem C05_controller_computes_graves_act (s0 : st) (cs : list (call QcNum)) :
  (0 < epsilon s0)%Qc -> (epsilon s0 <= 1)%Qc -> (0 <= depression_constant s0)%Qc ->
  wf s0 -> fresh s0 -> Forall call_wf cs ->
  let s := run s0 cs in
  let threshold := (1 - epsilon s0)%Qc in
  forall i, let hs := element_hs s0 i cs in
    (forall p, (probabilities s).[i] = Some p -> p = act_probability threshold hs) /\
    (forall r, (residuals s).[i] = Some r -> r = act_residual threshold hs) /\
    (forall n, (iterations s).[i] = Some n -> n = Qc_of_nat (act_iterations threshold hs)) /\
    (forall b, halted s i = Some b -> b = act_halted threshold hs) /\
    (forall k t d l a dl R j av dv,
       dget k (accumulators s) = Some t -> dget k (defaults s0) = Some d ->
       nth_error (leaves t) l = Some a -> nth_error (leaves d) l = Some dl ->
       a_shape a = batch_shape s0 ++ R -> j / size R = i ->
       a.[j] = Some av -> dl.[j] = Some dv ->
       exists us : list Qc,
         map (fun e => update_at k l j (snd e)) (past (element_log s0 i cs)) = map Some us /\
         av = (dv + dot (act_weights threshold hs) us)%Qc).
Proof.
  intros He He1 Hd W F Hc s threshold i hs.
  destruct (graves_statistics s0 cs He He1 Hd W F Hc i) as (A & B & C).
  split; [exact A|]. split; [exact B|]. split; [exact C|].
  split; [exact (graves_halted s0 cs He He1 Hd W F Hc i)|].
  intros k t d l a dl R j av dv H1 H2 H3 H4 H5 <-.
  exact (graves_accumulators s0 cs He He1 Hd W F Hc k t d l a dl R j av dv H1 H2 H3 H4 H5).
Qed.
Print Assumptions C05_controller_computes_graves_act.
(** [fresh] starting points: everything a builder hands out (C27); the three parts of the
    statement are never empty for such a controller: *)
Theorem C05_every_element_is_covered (s0 : st) cs :
  wf s0 -> fresh s0 -> Forall call_wf cs -> forall i, i < size (batch_shape s0) ->
  (exists p, (probabilities (run s0 cs)).[i] = Some p) /\ (exists r, (residuals (run s0 cs)).[i] = Some r) /\
  (exists n, (iterations (run s0 cs)).[i] = Some n) /\ (exists b, halted (run s0 cs) i = Some b).
Proof.
  intros W F Hc i Hi.
  destruct (run_wf s0 cs W (fresh_wf_pending _ F) Hc) as [W' _].
  pose proof (run_frame s0 cs W (fresh_wf_pending _ F) Hc) as Fr.
  assert (Hb : batch_shape (run s0 cs) = batch_shape s0).
  { pose proof (sf_p _ _ Fr) as X. unfold sig in X. now injection X. }
  destruct (nth_error_lt (a_data (probabilities (run s0 cs))) i) as [p Hp].
  { rewrite (wf_batch_len _ W'), Hb. exact Hi. }
  split; [eauto|]. split; [eapply batch_get; eauto using wf_r, wf_r_shape|].
  split; [eapply batch_get; eauto using wf_i, wf_i_shape|].
  exists (halted_at (run s0 cs) p). exact (halted_get _ _ _ Hp).
Qed.
Print Assumptions C05_every_element_is_covered.
Example C05_case : (0 < epsilon ctl2)%Qc /\ (epsilon ctl2 <= 1)%Qc /\ (0 <= depression_constant ctl2)%Qc /\
  wf ctl2 /\ fresh ctl2 /\ Forall call_wf calls2 /\
  map this (element_hs ctl2 0 calls2) = [1 # 2; 1; 1 # 2]%Q /\
  map this (element_hs ctl2 1 calls2) = [1 # 4; 0; 9 # 10]%Q /\
  map this (act_weights (1 - epsilon ctl2)%Qc (element_hs ctl2 0 calls2)) = [1 # 2; 1 # 2; 0]%Q /\
  map this (act_weights (1 - epsilon ctl2)%Qc (element_hs ctl2 1 calls2)) = [1 # 4; 0; 3 # 4]%Q /\
  act_iterations (1 - epsilon ctl2)%Qc (element_hs ctl2 1 calls2) = 3.
Proof.
  destruct ctl2_ok as [W F]. split; [cq|]. split; [cq|]. split; [cq|]. split; [exact W|].
  split; [exact F|]. split; [exact calls2_wf|]. repeat split; vm_compute; reflexivity.
Qed.
(** after a reset only the later iterations count *)
Example C05_reset_case : fresh ctl1 /\ wf ctl1 /\
  map this (element_hs ctl1 0 calls1) = [1 # 3]%Q /\
  map this (element_hs ctl1 1 calls1) = [1 # 4; 1 # 4; 9 # 10]%Q.
Proof. destruct ctl1_ok as [W F]. split; [exact F|]. split; [exact W|]. split; vm_compute; reflexivity. Qed.

(** ** C06 *)
Theorem C06_halted_output_is_convex (s0 : st) (cs : list (call QcNum)) :
  (0 < epsilon s0)%Qc -> (epsilon s0 <= 1)%Qc -> (0 <= depression_constant s0)%Qc ->
  wf s0 -> fresh s0 -> Forall call_wf cs ->
  let s := run s0 cs in
  forall i, halted s i = Some true ->
    let ws := act_weights (1 - epsilon s0)%Qc (element_hs s0 i cs) in
    Forall (fun w => (0 <= w)%Qc) ws /\ total ws = 1%Qc /\
    forall k t d l a dl R j av dv lo hi,
      dget k (accumulators s) = Some t -> dget k (defaults s0) = Some d ->
      nth_error (leaves t) l = Some a -> nth_error (leaves d) l = Some dl ->
      a_shape a = batch_shape s0 ++ R -> j / size R = i ->
      a.[j] = Some av -> dl.[j] = Some dv ->
      (forall e u, In e (past (element_log s0 i cs)) -> update_at k l j (snd e) = Some u ->
         (lo <= u /\ u <= hi)%Qc) ->
      (lo <= av - dv /\ av - dv <= hi)%Qc.
Proof.
  intros He He1 Hd W F Hc s i Hi ws.
  destruct (graves_weights s0 cs He He1 Hd W F Hc i) as [A B].
  split; [exact A|]. split; [exact (B Hi)|].
  intros k t d l a dl R j av dv lo hi H1 H2 H3 H4 H5 Hj. subst i.
  intros H6 H7. exact (graves_convex s0 cs He He1 Hd W F Hc k t d l a dl R j av dv lo hi H1 H2 H3 H4 H5 H6 H7 Hi).
Qed.
Print Assumptions C06_halted_output_is_convex.
Example C06_case : wf ctl2 /\ fresh ctl2 /\ Forall call_wf calls2 /\
  halted (run ctl2 calls2) 0 = Some true /\ halted (run ctl2 calls2) 1 = Some true /\
  exists t a, dget "x" (accumulators (run ctl2 calls2)) = Some t /\ nth_error (leaves t) 0 = Some a /\
    map this (a_data a) = [4; 6; 9; 11]%Q.
Proof.
  destruct ctl2_ok as [W F]. split; [exact W|]. split; [exact F|]. split; [exact calls2_wf|].
  split; [vm|]. split; [vm|].
  assert (X : match dget "x" (accumulators (run ctl2 calls2)) with
              | Some (Leaf a) => map this (a_data a) | _ => [] end = [4; 6; 9; 11]%Q) by vm.
  destruct (dget "x" (accumulators (run ctl2 calls2))) as [[a|n l]|]; try discriminate.
  exists (Leaf a), a. auto.
Qed.

(** ** C07 *)
Theorem C07_residual_and_iterations (s0 : st) (cs : list (call QcNum)) :
  (0 < epsilon s0)%Qc -> (epsilon s0 <= 1)%Qc -> (0 <= depression_constant s0)%Qc ->
  wf s0 -> fresh s0 -> Forall call_wf cs ->
  let s := run s0 cs in
  (forall i r, (residuals s).[i] = Some r -> (0 <= r /\ r <= 1)%Qc /\ (halted s i = Some false -> r = 0%Qc)) /\
  (** one more committed iteration *)
  (forall h s' i p r n b, awf h -> iterate_act s h = Ok s' ->
     (probabilities s).[i] = Some p -> (residuals s).[i] = Some r -> (iterations s).[i] = Some n ->
     halted s' i = Some b ->
     (halted s i = Some true -> (residuals s').[i] = Some r /\ (iterations s').[i] = Some n) /\
     (halted s i = Some false -> (iterations s').[i] = Some (n + 1)%Qc /\
        (residuals s').[i] = Some (if b then 1 - p else 0)%Qc)).
Proof.
  intros He He1 Hd W F Hc s. split; [exact (graves_residual_range s0 cs He He1 Hd W F Hc)|].
  intros h s' i p r n b A H Hp Hr Hn Hb.
  destruct (run_wf s0 cs W (fresh_wf_pending _ F) Hc) as [W' P']. fold s in W', P'.
  destruct (iterate_committed s h s' W' P' A H) as (C & W2 & _).
  pose proof (run_frame s0 cs W (fresh_wf_pending _ F) Hc) as Fr. fold s in Fr.
  assert (E1 : epsilon s = epsilon s0) by apply (sf_eps _ _ Fr).
  assert (E2 : depression_constant s = depression_constant s0) by apply (sf_dep _ _ Fr).
  assert (Hv : exists v, h.[i] = Some v).
  { eapply batch_get; [exact W'|exact A| |exact Hp].
    exact (proj1 (proj1 (iterate_ok_iff s h W' P' A) (ex_intro _ _ H))). }
  destruct Hv as [v Hv].
  pose proof (cm_p _ _ _ C i p v Hp Hv) as Cp. pose proof (cm_r _ _ _ C i p r v Hp Hr Hv) as Cr.
  pose proof (cm_i _ _ _ C i p n Hp Hn) as Ci.
  unfold halted in *. rewrite (halted_get _ _ _ Hp). split.
  - intros Hh. apply Some_inj in Hh. unfold next_r in Cr. unfold next_i in Ci. rewrite Hh in Cr, Ci.
    rewrite andb_false_r in Cr. auto.
  - intros Hh. apply Some_inj in Hh. unfold next_r in Cr. unfold next_i in Ci. rewrite Hh in Cr, Ci.
    rewrite andb_true_r in Cr. split; [exact Ci|].
    rewrite (halted_get _ _ _ Cp) in Hb. apply Some_inj in Hb.
    assert (Eh : halted_at s' (next_p s p v) = halts_now s p v).
    { unfold halted_at, threshold. rewrite (cm_eps _ _ _ C). fold (threshold s).
      unfold next_p, weight. destruct (halts_now s p v) eqn:E.
      - unfold threshold. cbn [v_ltb v_of_scl s_one_sub v_add v_sub v_one QcNum]. rewrite E1. apply Qcltb_lt.
        cbn [val QcNum] in p, v. revert He. qc.
      - unfold halts_now in E. cbn [v_ltb v_add QcNum] in *. rewrite <- E. f_equal. apply Qcplus_comm. }
    rewrite Eh in Hb. rewrite Hb in Cr. destruct b; [exact Cr|].
    assert (r = 0%Qc); [|now subst].
    apply (proj2 (graves_residual_range s0 cs He He1 Hd W F Hc i r Hr)). fold s. rewrite (halted_get _ _ _ Hp). now rewrite Hh.
Qed.
Print Assumptions C07_residual_and_iterations.
Example C07_case : wf ctl2 /\ fresh ctl2 /\ Forall call_wf (firstn 10 calls2) /\
  is_ok (iterate_act end2 (hp (q 1 2) (q 9 10))) = true /\ halted end2 0 = Some true /\ halted end2 1 = Some false /\
  map this (a_data (residuals end2)) = [1 # 2; 0]%Q /\ map this (a_data (iterations end2)) = [2; 2]%Q.
Proof.
  destruct ctl2_ok as [W F]. split; [exact W|]. split; [exact F|]. split; [repeat constructor|].
  repeat split; vm_compute; reflexivity.
Qed.

(** ** C08 *)
Theorem C08_batch_elements_independent {N} b (s1 s2 : state N) cs1 cs2 :
  wf s1 -> wf s2 -> wf_pending s1 -> wf_pending s2 -> Forall call_wf cs1 -> Forall call_wf cs2 ->
  agree b s1 s2 -> Forall2 (agree_call b (batch_shape s1)) cs1 cs2 ->
  agree b (run s1 cs1) (run s2 cs2).
Proof. exact (run_agree b s1 s2 cs1 cs2). Qed.
Print Assumptions C08_batch_elements_independent.
Theorem C08_iterate_same_outcome {N} b (s1 s2 : state N) h1 h2 :
  wf s1 -> wf s2 -> wf_pending s1 -> wf_pending s2 -> awf h1 -> awf h2 ->
  agree b s1 s2 -> agree_arr b (batch_shape s1) h1 h2 ->
  match iterate_act s1 h1, iterate_act s2 h2 with
  | Ok s1', Ok s2' => agree b s1' s2'
  | Err e1, Err e2 => e1 = e2
  | _, _ => False
  end.
Proof. exact (iterate_agree b s1 s2 h1 h2). Qed.
Print Assumptions C08_iterate_same_outcome.
(** two histories that agree on element 0 only *)
Definition calls_a : list (call QcNum) := [CCache "x" (u_x 1 2 3 4); CIter (hp (q 1 2) (q 1 4))].
Definition calls_b : list (call QcNum) := [CCache "x" (u_x 1 2 30 40); CIter (hp (q 1 2) (q 1 1))].
Lemma agree_refl {N} b (s : state N) : agree b s s.
Proof.
  assert (T : forall t : tree (array N), agree_tree b (batch_shape s) t t).
  { intros t. split; [reflexivity|]. induction (leaves t); constructor; auto. split; auto. }
  assert (D : forall d : dict (tree (array N)), agree_dict b (batch_shape s) d d).
  { intros d. split; [reflexivity|]. intros k t1 t2 H1 H2. assert (t1 = t2) by congruence. subst. apply T. }
  constructor; auto; split; auto.
Qed.
Lemma split2 (R : list nat) (n : nat) : [2; 2] = [2] ++ R -> R = [2].
Proof. cbn. now intros [= <-]. Qed.
Example C08_case : wf ctl1 /\ wf_pending ctl1 /\ Forall call_wf calls_a /\ Forall call_wf calls_b /\
  agree 0 ctl1 ctl1 /\ Forall2 (agree_call 0 (batch_shape ctl1)) calls_a calls_b /\
  length (returned ctl1 calls_a) = 2 /\ length (returned ctl1 calls_b) = 2 /\
  map this (a_data (probabilities (run ctl1 calls_a))) = [1 # 2; 1 # 4]%Q /\
  map this (a_data (probabilities (run ctl1 calls_b))) = [1 # 2; 1]%Q.
Proof.
  destruct ctl1_ok as [W F]. split; [exact W|]. split; [exact (fresh_wf_pending _ F)|].
  split; [repeat constructor|]. split; [repeat constructor|]. split; [apply agree_refl|]. split.
  { constructor; [|constructor; [|constructor]].
    - split; [reflexivity|]. split; [reflexivity|]. constructor; [|constructor]. split; [reflexivity|].
      intros R HR j Hj. apply split2 in HR; [|exact 0]. subst R. cbn [size fold_right] in Hj.
      destruct j as [|[|j]]; try reflexivity. exfalso.
      pose proof (Nat.div_le_mono 2 (S (S j)) 2 ltac:(lia) ltac:(lia)) as X.
      change (2 * 1) with 2 in Hj. rewrite Hj in X. cbn in X. lia.
    - split; [reflexivity|]. intros R HR j Hj. 
      assert (R = []) as -> by (destruct R; [reflexivity|discriminate]).
      cbn [size fold_right] in Hj. rewrite Nat.div_1_r in Hj. subst j. reflexivity. }
  repeat split; vm_compute; reflexivity.
Qed.

(** ** C09 *)
Theorem C09_commits_exactly_once {N} (s s' : state N) h :
  wf s -> wf_pending s -> awf h -> iterate_act s h = Ok s' ->
  (forall k t, dget k (accumulators s) = Some t -> exists u, dget k (updates s) = Some u /\ is_none u = false) /\
  (forall k t, dget k (accumulators s') = Some t -> dget k (updates s') = Some tnone) /\
  (forall h', awf h' -> accumulators s <> [] -> exists e, iterate_act s' h' = Err e) /\
  (forall h', accumulators s <> [] -> awf h' -> sig h' = sig (probabilities s) -> iterate_act s' h' = Err RuntimeError).
Proof.
  intros W P A H. destruct (iterate_empties s s' h W P A H) as [X Y]. split; [exact X|]. split; [exact Y|].
  assert (K : accumulators s <> [] -> exists k, In k (dkeys (accumulators s))).
  { destruct (accumulators s) as [|[k t] d]; [contradiction|]. intros _. exists k. now left. }
  assert (Z : forall h', awf h' -> accumulators s <> [] -> exists e, iterate_act s' h' = Err e).
  { intros h' A' Hn. destruct (K Hn) as [k Hk]. exact (iterate_twice s s' h h' k W P A A' H Hk). }
  split; [exact Z|]. intros h' Hn A' Hs. destruct (Z h' A' Hn) as [e He]. rewrite He.
  destruct (iterate_committed s h s' W P A H) as (C & W' & P').
  unfold sig in Hs. injection Hs as Hs1 Hs2. pose proof (cm_p_sig _ _ _ C) as Hs. unfold sig in Hs. injection Hs as Hp1 Hp2.
  destruct (iterate_err s' h' e W' P' A' He) as [[B _]|[[_ [B _]]|[_ [_ [_ ->]]]]].
  - exfalso. apply B. unfold batch_shape. congruence.
  - exfalso. apply B. rewrite Hs2, Hp2. apply floating_weak_float. apply (wf_p_float _ W).
  - reflexivity.
Qed.
Print Assumptions C09_commits_exactly_once.
(** over histories: per accumulator, non-None cache calls that returned and committed iterations
    differ by the update that is still pending *)
Theorem C09_one_update_per_iteration {N} (s : state N) cs k :
  wf s -> wf_pending s -> Forall call_wf cs -> In k (dkeys (accumulators s)) ->
  pending_count s k + count (caches k) (returned s cs) =
  count iterates (returned s cs) + pending_count (run s cs) k.
Proof. exact (commit_balance s cs k). Qed.
Print Assumptions C09_one_update_per_iteration.
Example C09_case : wf end2 /\ wf_pending end2 /\ accumulators end2 <> [] /\
  is_ok (iterate_act end2 (hp (q 1 2) (q 9 10))) = true /\
  sig (hp (q 1 2) (q 9 10)) = sig (probabilities end2) /\
  count (caches "y") (returned ctl2 calls2) = 3 /\ count iterates (returned ctl2 calls2) = 3.
Proof.
  destruct end2_ok as [W P]. split; [exact W|]. split; [exact P|].
  split; [intros H; assert (X : length (accumulators end2) = 2) by vm; now rewrite H in X|].
  repeat split; vm_compute; reflexivity.
Qed.

(** ** C10 *)
Theorem C10_cache_update_precise {N} (s : state N) name item :
  (dget name (updates s) = None -> cache_update s name item = Err ValueError) /\
  (forall u, dget name (updates s) = Some u -> is_none u = false -> cache_update s name item = Err RuntimeError) /\
  (forall u, dget name (updates s) = Some u -> is_none u = true ->
     exists s', cache_update s name item = Ok s' /\
       dget name (updates s') = Some item /\ dkeys (updates s') = dkeys (updates s) /\
       (forall k, k <> name -> dget k (updates s') = dget k (updates s)) /\
       accumulators s' = accumulators s /\ defaults s' = defaults s /\ probabilities s' = probabilities s /\
       residuals s' = residuals s /\ iterations s' = iterations s /\ epsilon s' = epsilon s /\
       depression_constant s' = depression_constant s /\ error_mode s' = error_mode s).
Proof.
  rewrite cache_update_char. split; [now intros ->|]. split; [now intros u -> ->|].
  intros u Hu Hn. rewrite Hu, Hn. eexists. split; [reflexivity|]. cbn. rewrite dget_dset_eq. split; [reflexivity|].
  split; [apply dkeys_dset_in, dget_keys; eauto|]. split; [|repeat split].
  intros k Hk. now apply dget_dset_neq.
Qed.
Print Assumptions C10_cache_update_precise.
Theorem C10_any_caching_order {N} (s s' : state N) l l' :
  NoDup (map fst l) -> Permutation l l' -> cache_all s l = Ok s' -> cache_all s l' = Ok s'.
Proof. exact (cache_any_order s s' l l'). Qed.
Print Assumptions C10_any_caching_order.
(** The two flags a caller can consult before committing. *)
Theorem C10_flags_say_what_is_cached {N} (s : state N) : wf s ->
  (updates_ready_to_commit s = true <->
     forall k, In k (dkeys (accumulators s)) -> exists u, dget k (updates s) = Some u /\ is_none u = false) /\
  (has_cached_updates s = true <->
     exists k u, In k (dkeys (accumulators s)) /\ dget k (updates s) = Some u /\ is_none u = false).
Proof.
  intros W. assert (ND := wf_nodup_u _ W). split; split.
  - unfold updates_ready_to_commit. rewrite forallb_forall. intros H k Hk. apply (wf_keys_u _ W), dget_keys in Hk as [u Hu].
    exists u. split; [exact Hu|]. apply dget_In in Hu. apply H in Hu. now apply negb_true_iff in Hu.
  - unfold updates_ready_to_commit. rewrite forallb_forall. intros H [k u] Hin. cbn [snd]. assert (Hd := dget_nodup k u _ ND Hin).
    destruct (H k) as (u' & Hu & Hn); [apply (wf_keys_u _ W), dget_keys; eauto|]. assert (u' = u) by congruence. subst u'. now rewrite Hn.
  - unfold has_cached_updates. rewrite existsb_exists. intros ([k u] & Hin & Hn). cbn [snd] in Hn. apply negb_true_iff in Hn.
    assert (Hd := dget_nodup k u _ ND Hin). exists k, u. split; [apply (wf_keys_u _ W), dget_keys; eauto|auto].
  - intros (k & u & _ & Hu & Hn). unfold has_cached_updates. rewrite existsb_exists. exists (k, u). split; [now apply dget_In|].
    cbn [snd]. now rewrite Hn.
Qed.
Print Assumptions C10_flags_say_what_is_cached.
Example C10_case : NoDup (map fst [("x", u_x 1 2 3 4); ("y", u_y 1 2 3 4)]) /\
  Permutation [("x", u_x 1 2 3 4); ("y", u_y 1 2 3 4)] [("y", u_y 1 2 3 4); ("x", u_x 1 2 3 4)] /\
  is_ok (cache_all ctl2 [("x", u_x 1 2 3 4); ("y", u_y 1 2 3 4)]) = true /\
  dget "x" (updates ctl2) = Some tnone /\ dget "nope" (updates ctl2) = None /\
  (exists u, dget "x" (updates end2) = Some u /\ is_none u = false) /\
  wf ctl2 /\ has_cached_updates ctl2 = false /\
  (updates_ready_to_commit (run ctl2 [CCache "x" (u_x 1 2 3 4)]) = false /\ has_cached_updates (run ctl2 [CCache "x" (u_x 1 2 3 4)]) = true) /\
  updates_ready_to_commit (run ctl2 [CCache "x" (u_x 1 2 3 4); CCache "y" (u_y 1 2 3 4)]) = true.
Proof.
  split; [repeat constructor; cbn; intuition discriminate|]. split; [constructor|].
  split; [vm|]. split; [reflexivity|]. split; [reflexivity|].
  assert (X : match dget "x" (updates end2) with Some u => is_none u | None => true end = false) by vm.
  split; [destruct (dget "x" (updates end2)) as [u|]; [eauto|discriminate]|].
  split; [exact (proj1 ctl2_ok)|]. split; [vm|]. split; [split; vm|vm].
Qed.

(** ** C11 *)
Theorem C11_structure_is_stable {N} (s : state N) cs :
  wf s -> wf_pending s -> Forall call_wf cs ->
  let s' := run s cs in
  epsilon s' = epsilon s /\ depression_constant s' = depression_constant s /\ error_mode s' = error_mode s /\
  defaults s' = defaults s /\ sig (probabilities s') = sig (probabilities s) /\
  sig (residuals s') = sig (residuals s) /\ sig (iterations s') = sig (iterations s) /\
  dkeys (accumulators s') = dkeys (accumulators s) /\ dkeys (updates s') = dkeys (updates s) /\
  (forall k t t', dget k (accumulators s) = Some t -> dget k (accumulators s') = Some t' ->
     structure t' = structure t /\ map a_shape (leaves t') = map a_shape (leaves t) /\
     map a_dt (leaves t') = map a_dt (leaves t)) /\
  wf s'.
Proof.
  intros W P F s'. destruct (run_frame s cs W P F). destruct (run_wf s cs W P F) as [W' _].
  repeat (split; [assumption|]). split; [|exact W'].
  intros k t t' H1 H2. destruct (sf_acc k t t' H1 H2) as [A B]. split; [exact A|]. split.
  - apply (f_equal (map fst)) in B. rewrite !map_map in B. exact B.
  - apply (f_equal (map snd)) in B. rewrite !map_map in B. exact B.
Qed.
Print Assumptions C11_structure_is_stable.
Example C11_case : wf ctl2 /\ wf_pending ctl2 /\ Forall call_wf calls2 /\ length (returned ctl2 calls2) = 9.
Proof.
  destruct ctl2_ok as [W F]. split; [exact W|]. split; [exact (fresh_wf_pending _ F)|]. split; [exact calls2_wf|]. vm.
Qed.

(** ** C12 *)
Theorem C12_clamping (s : st) (h : array QcNum) :
  iterate_act s (a_clip01 h) = iterate_act s h /\
  (forall h' : array QcNum, a_shape h' = a_shape h -> a_dt h' = a_dt h ->
     Forall2 (fun v v' => v' = v \/ ((1 <= v)%Qc /\ v' = 1%Qc) \/ ((v <= 0)%Qc /\ v' = 0%Qc)) (a_data h) (a_data h') ->
     iterate_act s h' = iterate_act s h).
Proof.
  assert (E : forall v : Qc, clip01 (N := QcNum) (clip01 (N := QcNum) v) = clip01 (N := QcNum) v).
  { intros v. rewrite !clip01_clamp. unfold clamp.
    destruct (Qclt_le_dec v 0) as [X|X]; [reflexivity|]. destruct (Qclt_le_dec 1 v) as [Y|Y]; [reflexivity|].
    destruct (Qclt_le_dec v 0) as [Z|_]; [exfalso; revert X Z; qc|].
    destruct (Qclt_le_dec 1 v) as [Z|_]; [exfalso; revert Y Z; qc|reflexivity]. }
  split; [apply iterate_clipped; exact E|].
  intros h' H1 H2 H3. apply iterate_clip; [exact H1|now rewrite H2|].
  induction H3 as [|v v' l l' Hv _ IH]; [reflexivity|]. cbn [map]. f_equal; [|exact IH].
  destruct Hv as [->|[[Hv ->]|[Hv ->]]]; [reflexivity| |].
  - change (clip01 (N := QcNum) 1%Qc = clip01 (N := QcNum) v). rewrite !clip01_clamp. unfold clamp.
    destruct (Qclt_le_dec 1 0) as [X|_]; [exfalso; revert X; qc|]. destruct (Qclt_le_dec 1 1); 
    (destruct (Qclt_le_dec v 0) as [X|_]; [exfalso; revert X Hv; qc|]);
    destruct (Qclt_le_dec 1 v) as [X|X]; try reflexivity; apply Qcle_antisym; assumption.
  - change (clip01 (N := QcNum) 0%Qc = clip01 (N := QcNum) v). rewrite !clip01_clamp. unfold clamp.
    destruct (Qclt_le_dec 0 0) as [X|_]; [exfalso; revert X; qc|]. destruct (Qclt_le_dec 1 0) as [X|_]; [exfalso; revert X; qc|].
    destruct (Qclt_le_dec v 0) as [_|X]; [reflexivity|]. destruct (Qclt_le_dec 1 v) as [Y|_]; [exfalso; revert Y Hv; qc|].
    now apply Qcle_antisym.
Qed.
Print Assumptions C12_clamping.
Example C12_case : is_ok (iterate_act end2 (hp (q 7 1) (q (-3) 1))) = true /\
  map this (a_data (a_clip01 (hp (q 7 1) (q (-3) 1)))) = [1; 0]%Q.
Proof. split; vm_compute; reflexivity. Qed.

(** ** C13 *)
Theorem C13_iterate_succeeds {N} (s : state N) h :
  wf s -> wf_pending s -> awf h ->
  (** core dtype everywhere and updates shaped like the accumulators *)
  (a_shape h = batch_shape s -> a_dt h = a_dt (probabilities s) ->
   (forall k t, dget k (accumulators s) = Some t ->
      Forall (fun a => a_dt a = a_dt (probabilities s)) (leaves t) /\
      exists u, dget k (updates s) = Some u /\ is_none u = false /\ alike u t) ->
   exists s', iterate_act s h = Ok s') /\
  (a_shape h <> batch_shape s -> iterate_act s h = Err ValueError) /\
  (** the exact condition *)
  ((exists s', iterate_act s h = Ok s') <->
   (a_shape h = batch_shape s /\ weak_float (a_dt h) = a_dt (probabilities s) /\ ready s)).
Proof.
  intros W P A. split; [|split].
  - intros Hs Hd H. apply iterate_own_dtype; auto. intros k t Ht. destruct (H k t Ht) as [X Y]. split; [|exact Y].
    eapply Forall_impl; [|exact X]. cbn. intros a ->. apply promote_same.
  - intros Hs. destruct (iterate_act s h) as [s'|e] eqn:E.
    + exfalso. apply Hs. exact (proj1 (proj1 (iterate_ok_iff s h W P A) (ex_intro _ _ E))).
    + destruct (iterate_err s h e W P A E) as [[_ ->]|[[B _]|[B _]]]; [reflexivity|contradiction|contradiction].
  - exact (iterate_ok_iff s h W P A).
Qed.
Print Assumptions C13_iterate_succeeds.
Example C13_case : wf end2 /\ wf_pending end2 /\ awf (hp (q 1 2) (q 9 10)) /\
  a_shape (hp (q 1 2) (q 9 10)) = batch_shape end2 /\ dtype_eqb (a_dt (hp (q 1 2) (q 9 10))) (a_dt (probabilities end2)) = true /\
  is_ok (iterate_act end2 (hp (q 1 2) (q 9 10))) = true /\
  raises (iterate_act end2 (arr [3] [q 1 1; q 1 1; q 1 1])) = Some ValueError.
Proof.
  destruct end2_ok as [W P]. split; [exact W|]. split; [exact P|]. repeat split; vm.
Qed.

(** ** C14 *)
(** The builder accepts accumulators whose precision is below that of the probabilities, and such a
    controller can never be iterated, whatever the history, the updates and the halting tensor. *)
Theorem C14_refuted {N} (s : state N) cs h k t a :
  wf s -> wf_pending s -> Forall call_wf cs -> awf h ->
  dget k (accumulators s) = Some t -> In a (leaves t) ->
  promote (a_dt a) (a_dt (probabilities s)) <> a_dt a ->
  exists e, iterate_act (run s cs) h = Err e.
Proof.
  intros W P F A Ht Ha Hp. destruct (run_wf s cs W P F) as [W' P']. pose proof (run_frame s cs W P F) as Fr.
  assert (Hk : In k (dkeys (accumulators (run s cs)))) by (rewrite (sf_accs _ _ Fr); apply dget_keys; eauto).
  apply dget_keys in Hk as [t' Ht']. pose proof (sf_acc _ _ Fr k t t' Ht Ht') as Al.
  apply In_nth_error in Ha as [l Hl].
  destruct (nth_error_same_length (leaves t) (leaves t') l a) as [a' Ha'];
    [symmetry; now apply alike_len|exact Hl|].
  pose proof (alike_nth t' t l a' a Al Ha' Hl) as X. unfold sig in X. injection X as _ X.
  pose proof (sf_p _ _ Fr) as Y. unfold sig in Y. injection Y as _ Y.
  apply (iterate_low_precision (run s cs) h k t' a'); auto.
  - eapply nth_error_In. exact Ha'.
  - rewrite X, Y. exact Hp.
Qed.
Print Assumptions C14_refuted.
Theorem C14_partial {N} (s : state N) h :
  wf s -> wf_pending s -> awf h -> a_shape h = batch_shape s -> a_dt h = a_dt (probabilities s) ->
  (forall k t, dget k (accumulators s) = Some t ->
     Forall (fun a => promote (a_dt a) (a_dt (probabilities s)) = a_dt a) (leaves t) /\
     exists u, dget k (updates s) = Some u /\ is_none u = false /\ alike u t) ->
  exists s', iterate_act s h = Ok s'.
Proof. exact (iterate_own_dtype s h). Qed.
Print Assumptions C14_partial.
Definition half : tr := Leaf (farr DF16 [2] [q 0 1; q 0 1]).
Definition ctl_half : st := bafter (core2 (q 1 1)) (BDirect "x" half).
Example C14_case : define_directly (core2 (q 1 1)) "x" half = Ok ctl_half /\ wf ctl_half /\ wf_pending ctl_half /\
  dget "x" (accumulators ctl_half) = Some half /\
  promote DF16 (a_dt (probabilities ctl_half)) <> DF16 /\
  raises (x <- cache_update ctl_half "x" half ;; iterate_act x (hp (q 1 2) (q 1 2))) = Some RuntimeError.
Proof.
  destruct (new_builder_wf _ _ _ _ _ _ (core2_built (q 1 1))) as [W F].
  assert (L : Forall bcall_wf [BDirect "x" half]) by repeat constructor.
  destruct (brun_wf _ _ W F L) as (A & B & _).
  split; [reflexivity|]. split; [exact A|]. split; [exact (fresh_wf_pending _ B)|].
  split; [reflexivity|]. split; [discriminate|vm].
Qed.
(** a float64 accumulator with float32 probabilities can be iterated *)
Definition dbl : tr := Leaf (farr DF64 [2] [q 0 1; q 0 1]).
Example C14_partial_case : is_ok (s <- define_directly (core2 (q 1 1)) "x" dbl ;;
  x <- cache_update s "x" dbl ;; iterate_act x (hp (q 1 2) (q 1 2))) = true /\ promote DF64 DF32 = DF64.
Proof. split; vm. Qed.

(** ** C15 *)
Theorem C15_reset_exact (s s' : st) :
  wf s -> reset_batches s = Ok s' ->
  (epsilon s' = epsilon s /\ depression_constant s' = depression_constant s /\
   error_mode s' = error_mode s /\ defaults s' = defaults s /\ updates s' = updates s) /\
  (sig (probabilities s') = sig (probabilities s) /\ sig (residuals s') = sig (residuals s) /\
   sig (iterations s') = sig (iterations s) /\ dkeys (accumulators s') = dkeys (accumulators s)) /\
  forall i b, halted s i = Some b ->
    (probabilities s').[i] = (if b then Some 0%Qc else (probabilities s).[i]) /\
    (residuals s').[i] = (if b then Some 0%Qc else (residuals s).[i]) /\
    (iterations s').[i] = (if b then Some 0%Qc else (iterations s).[i]) /\
    forall k t, dget k (accumulators s) = Some t ->
      exists d t', dget k (defaults s) = Some d /\ dget k (accumulators s') = Some t' /\ alike t' t /\
        forall l a dl a', nth_error (leaves t) l = Some a -> nth_error (leaves d) l = Some dl ->
          nth_error (leaves t') l = Some a' ->
          forall R, a_shape a = batch_shape s ++ R ->
          forall j, j / size R = i -> a'.[j] = (if b then dl else a).[j].
Proof. exact (reset_exact s s'). Qed.
Print Assumptions C15_reset_exact.
Definition mid1 : st := run ctl1 (firstn 5 calls1).
Lemma mid1_ok : wf mid1 /\ wf_pending mid1.
Proof. destruct ctl1_ok as [W F]. apply run_wf; auto using fresh_wf_pending. repeat constructor. Qed.
Example C15_case : wf mid1 /\ is_ok (reset_batches mid1) = true /\
  halted mid1 0 = Some true /\ halted mid1 1 = Some false /\ map this (a_data (probabilities mid1)) = [1; 1 # 2]%Q.
Proof. destruct mid1_ok as [W P]. split; [exact W|]. repeat split; vm_compute; reflexivity. Qed.

(** ** C16 *)
(** With batch dimensions any accumulator that is a collection with at least one leaf makes
    [reset_batches] raise AttributeError. *)
Theorem C16_refuted {N} (s : state N) k n cs :
  wf s -> idle s -> batch_shape s <> [] -> dget k (accumulators s) = Some (Node n cs) ->
  leaves (Node n cs) <> [] -> reset_batches s = Err AttributeError.
Proof.
  intros W I B Hk Hl. destruct (reset_batches s) as [s'|e] eqn:E.
  - exfalso. destruct (proj1 (reset_ok_iff s W) (ex_intro _ _ E)) as [_ R].
    destruct (R k _ Hk) as [X|[[a X]|X]]; [contradiction|discriminate|contradiction].
  - destruct (reset_err s e W E) as [[X _]|[_ [_ ->]]]; [contradiction|reflexivity].
Qed.
Print Assumptions C16_refuted.
(** It works, as C15 says, exactly for the others. *)
Theorem C16_partial {N} (s : state N) : wf s ->
  (exists s', reset_batches s = Ok s') <->
  (idle s /\ forall k t, dget k (accumulators s) = Some t ->
     batch_shape s = [] \/ (exists a, t = Leaf a) \/ leaves t = []).
Proof. exact (reset_ok_iff s). Qed.
Print Assumptions C16_partial.
Example C16_case : wf ctl2 /\ idle ctl2 /\ batch_shape ctl2 <> [] /\
  dget "y" (accumulators ctl2) = Some t_y /\ leaves t_y <> [] /\ raises (reset_batches ctl2) = Some AttributeError /\
  is_ok (reset_batches mid1) = true.
Proof.
  destruct ctl2_ok as [W F]. split; [exact W|]. split.
  { intros k u Hu. destruct F as (_ & _ & _ & _ & F). now rewrite (F k u Hu). }
  split; [rewrite (proj2 ctl2_keys); discriminate|]. split; [reflexivity|]. split; [discriminate|]. split; vm.
Qed.

(** ** C17 *)
Theorem C17_reset_guarded {N} (s : state N) : wf s ->
  (reset_batches s = Err RuntimeError <-> exists k u, dget k (updates s) = Some u /\ is_none u = false).
Proof.
  intros W. assert (X : has_cached_updates s = false <-> idle s) by (apply has_cached_false; apply (wf_nodup_u _ W)).
  split.
  - intros H. destruct (reset_err s _ W H) as [[Hi _]|[_ [_ E]]]; [|discriminate].
    destruct (has_cached_updates s) eqn:E; [|exfalso; apply Hi; now apply X].
    unfold has_cached_updates in E. apply existsb_exists in E as ([k u] & Hin & Hu). cbn [snd] in Hu.
    exists k, u. split; [apply dget_nodup; [apply (wf_nodup_u _ W)|exact Hin]|]. now destruct (is_none u).
  - intros (k & u & Hu & Hn).
    assert (Hi : ~ idle s) by (intros I; rewrite (I k u Hu) in Hn; discriminate).
    unfold reset_batches. destruct (has_cached_updates s) eqn:E; [reflexivity|]. exfalso. apply Hi. now apply X.
Qed.
Print Assumptions C17_reset_guarded.
Theorem C17_reset_idempotent (s s' : st) :
  wf s -> (epsilon s <= 1)%Qc -> reset_batches s = Ok s' -> reset_batches s' = Ok s'.
Proof. exact (reset_idempotent s s'). Qed.
Print Assumptions C17_reset_idempotent.
Example C17_case : wf mid1 /\ (epsilon mid1 <= 1)%Qc /\ is_ok (reset_batches mid1) = true /\
  raises (reset_batches (run ctl1 (firstn 1 calls1))) = Some RuntimeError.
Proof. destruct mid1_ok as [W P]. split; [exact W|]. split; [cq|]. split; vm. Qed.

(** ** C18 *)
Theorem C18_depression_scales (s : st) (cs : list (call QcNum)) :
  (0 <= depression_constant s)%Qc -> (depression_constant s <= 1)%Qc -> Forall unit_range cs ->
  run (with_dep s 1%Qc) (map (scale_call (depression_constant s)) cs) = with_dep (run s cs) 1%Qc.
Proof. exact (run_scales s cs). Qed.
Print Assumptions C18_depression_scales.
Theorem C18_depression_zero (s : st) (h : array QcNum) s' i :
  wf s -> wf_pending s -> awf h -> depression_constant s = 0%Qc -> iterate_act s h = Ok s' ->
  halted s i = Some false ->
  (probabilities s').[i] = (probabilities s).[i] /\ (residuals s').[i] = (residuals s).[i] /\
  halted s' i = Some false /\
  forall k t t', dget k (accumulators s) = Some t -> dget k (accumulators s') = Some t' ->
    forall l a a', nth_error (leaves t) l = Some a -> nth_error (leaves t') l = Some a' ->
    forall R, a_shape a = batch_shape s ++ R ->
    forall j, j / size R = i -> a'.[j] = a.[j].
Proof. exact (depression_zero s h s' i). Qed.
Print Assumptions C18_depression_zero.
Definition ctl_half_dep : st := ctl1d (q 1 2).
Definition ctl_zero_dep : st := run (ctl1d (q 0 1)) (firstn 1 calls_a).
Example C18_case : (0 <= depression_constant ctl_half_dep)%Qc /\ (depression_constant ctl_half_dep <= 1)%Qc /\
  Forall unit_range calls_a /\ length (returned ctl_half_dep calls_a) = 2 /\
  map this (a_data (probabilities (run ctl_half_dep calls_a))) = [1 # 4; 1 # 8]%Q.
Proof.
  split; [cq|]. split; [cq|]. split; [|split; vm_compute; reflexivity].
  repeat constructor; try cq.
Qed.
Example C18_zero_case : wf ctl_zero_dep /\ wf_pending ctl_zero_dep /\ depression_constant ctl_zero_dep = 0%Qc /\
  is_ok (iterate_act ctl_zero_dep (hp (q 1 2) (q 1 1))) = true /\ halted ctl_zero_dep 1 = Some false.
Proof.
  destruct (ctl1d_ok (q 0 1)) as [W F].
  assert (L : Forall call_wf (firstn 1 calls_a)) by repeat constructor.
  destruct (run_wf _ _ W (fresh_wf_pending _ F) L) as [W' P'].
  split; [exact W'|]. split; [exact P'|]. split; [apply Qc_is_canon; reflexivity|]. split; vm.
Qed.

(** ** C19 *)
(** Any negative constant, which the builder accepts, breaks the invariants: probabilities become
    negative in the first iteration, and a halted element can be un-halted by iterating. *)
Theorem C19_refuted (s : st) (h : array QcNum) s' i v :
  wf s -> fresh s -> (epsilon s <= 1)%Qc -> (depression_constant s < 0)%Qc -> forall cs, Forall call_wf cs ->
  (forall c, In c cs -> exists name item, c = CCache name item) ->
  awf h -> iterate_act (run s cs) h = Ok s' -> h.[i] = Some v -> (0 < v)%Qc ->
  exists p', (probabilities s').[i] = Some p' /\ (p' < 0)%Qc.
Proof.
  intros W F He Hd cs Hcs Hc A H Hv Hpos.
  destruct (run_wf s cs W (fresh_wf_pending _ F) Hcs) as [W' P'].
  pose proof (run_frame s cs W (fresh_wf_pending _ F) Hcs) as Fr.
  assert (Ep : probabilities (run s cs) = probabilities s).
  { clear -Hc. revert s. induction cs as [|c cs IH]; intros s; [reflexivity|]. rewrite run_cons, IH by (intros; apply Hc; now right).
    destruct (Hc c (or_introl eq_refl)) as (n & it & ->). unfold after. cbn [apply_call]. rewrite cache_update_char.
    destruct (dget n (updates s)) as [u|]; [|reflexivity]. destruct (is_none u); reflexivity. }
  assert (Hs : a_shape h = batch_shape (run s cs))
    by exact (proj1 (proj1 (iterate_ok_iff _ h W' P' A) (ex_intro _ _ H))).
  assert (exists p, (probabilities (run s cs)).[i] = Some p) as [p Hp].
  { eapply nth_error_same_length; [|exact Hv]. rewrite (wf_batch_len _ W'). unfold awf, twf in A.
    fold (a_data h) in A. fold (a_shape h) in A. congruence. }
  assert (p = 0%Qc) as ->.
  { rewrite Ep in Hp. destruct F as [F _]. rewrite Forall_forall in F. symmetry. apply F. eapply nth_error_In. exact Hp. }
  destruct (depression_negative (run s cs) h s' i 0%Qc v W' P' A) as [X _]; auto.
  { now rewrite (sf_dep _ _ Fr). }
  destruct (X) as (p' & Hp' & Hlt).
  { unfold halted_at, threshold. rewrite (sf_eps _ _ Fr). apply Qcltb_ge. cbn. revert He. qc. }
  eauto.
Qed.
Print Assumptions C19_refuted.
Theorem C19_refuted_unhalts (s : st) (h : array QcNum) s' i p v :
  wf s -> wf_pending s -> awf h -> (depression_constant s < 0)%Qc -> iterate_act s h = Ok s' ->
  (probabilities s).[i] = Some p -> h.[i] = Some v -> (0 < v)%Qc ->
  (p + depression_constant s * clamp v <= 1 - epsilon s)%Qc -> halted s' i = Some false.
Proof. intros W P A D H Hp Hv Hpos. exact (proj2 (depression_negative s h s' i p v W P A D H Hp Hv Hpos)). Qed.
Print Assumptions C19_refuted_unhalts.
(** For constants >= 0 the invariants hold. *)
Theorem C19_partial (s : st) (cs : list (call QcNum)) :
  wf s -> fresh s -> Forall call_wf cs -> (0 <= epsilon s)%Qc -> (0 <= depression_constant s)%Qc ->
  forall i p, (probabilities (run s cs)).[i] = Some p -> (0 <= p /\ p <= 1)%Qc.
Proof.
  intros W F Hc He Hd. apply (run_range s cs W (fresh_wf_pending _ F) Hc He Hd).
  intros i p Hp. destruct F as [F _]. rewrite Forall_forall in F. apply nth_error_In in Hp. rewrite <- (F _ Hp). split; cq.
Qed.
Print Assumptions C19_partial.
Definition ctl_neg : st := ctl1d (q (-2) 1).
Definition with_p (s : st) (p : array QcNum) : st :=
  mkState (epsilon s) (iterations s) (residuals s) p (defaults s) (accumulators s) (updates s)
    (depression_constant s) (error_mode s).
Example C19_case : wf ctl_neg /\ fresh ctl_neg /\ (depression_constant ctl_neg < 0)%Qc /\
  is_ok (iterate_act (run ctl_neg [CCache "x" t_x]) (hp (q 1 2) (q 1 1))) = true /\
  map this (a_data (probabilities (run ctl_neg [CCache "x" t_x; CIter (hp (q 1 2) (q 1 1))]))) = [(-1) # 1; (-2) # 1]%Q.
Proof.
  destruct (ctl1d_ok (q (-2) 1)) as [W F]. split; [exact W|]. split; [exact F|]. split; [cq|].
  split; vm_compute; reflexivity.
Qed.
(** element 0 of this controller is halted; one iteration un-halts it *)
Definition ctl_neg_halted : st := run (with_p ctl_neg (hp (q 1 1) (q 0 1))) [CCache "x" t_x].
Example C19_unhalts_case : halted ctl_neg_halted 0 = Some true /\
  halted (run ctl_neg_halted [CIter (hp (q 1 2) (q 1 1))]) 0 = Some false.
Proof. split; vm_compute; reflexivity. Qed.

(** ** C20 *)
Theorem C20_enough_mass_halts (s0 : st) (cs : list (call QcNum)) :
  (0 < epsilon s0)%Qc -> (epsilon s0 <= 1)%Qc -> (0 <= depression_constant s0)%Qc ->
  wf s0 -> fresh s0 -> Forall call_wf cs ->
  let s := run s0 cs in
  (forall i b, halted s i = Some b -> (b = true <-> (1 - epsilon s0 < total (element_hs s0 i cs))%Qc)) /\
  (is_completely_halted s = true <-> forall i b, halted s i = Some b -> b = true) /\
  (is_any_halted s = true <-> exists i, halted s i = Some true).
Proof.
  intros He He1 Hd W F Hc s. split; [intros i b; exact (graves_mass s0 cs He He1 Hd W F Hc i b)|].
  split; [exact (completely_halted_iff s)|exact (any_halted_iff s)].
Qed.
Print Assumptions C20_enough_mass_halts.
Example C20_case : (0 < epsilon ctl2)%Qc /\ (epsilon ctl2 <= 1)%Qc /\ (0 <= depression_constant ctl2)%Qc /\
  wf ctl2 /\ fresh ctl2 /\ Forall call_wf calls2 /\ is_completely_halted (run ctl2 calls2) = true /\
  is_completely_halted mid2 = false /\ is_any_halted mid2 = true /\ is_any_halted ctl2 = false.
Proof.
  destruct ctl2_ok as [W F]. split; [cq|]. split; [cq|]. split; [cq|]. split; [exact W|].
  split; [exact F|]. split; [exact calls2_wf|]. repeat split; vm_compute; reflexivity.
Qed.
