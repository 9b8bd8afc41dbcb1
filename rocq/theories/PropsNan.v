(** * C98: what a layer computes for an element that has finished, in IEEE-754 arithmetic with NaN and infinities.

    Violated by NaN halting probabilities: they make a finished element run again, for good, and the
    following iterations change its result. Holds for everything else.

    Vocabulary: ElementSpec.v ([same_element]: residual, iteration count and all accumulator entries are the same),
    LayerSpec.v (docstring layers), PropsFloat.v ([effective_value]: the halting value clamped and depressed). *)
From Coq Require Import ZArith Reals Lia Lra.
From Flocq Require Import Core BinarySingleNaN.
From Verif Require Import Base PyTree Tensor Num FloatNum FloatSpec Utils States Controller Builder Layers
  Wf Spec History ElementSpec BuilderSpec StateSpec LayerSpec IeeeLoopSpec.
From Verif Require Import BaseFacts PyTreeFacts ControllerFacts IterateFacts ResetFacts HistoryFacts AgreeFacts ExactFacts ElementFacts StateFacts LayerFacts4
  GravesFacts LoopFacts FloatFacts FloatFacts2 FloatFacts6 IeeeLoopFacts.
From Verif Require Import StepFacts PropsController PropsFloat.
Close Scope R_scope. Close Scope Z_scope. Open Scope string_scope. Open Scope list_scope. Open Scope nat_scope.

Section Nan.
  Context {prec emax : Z} {Hp : Prec_gt_0 prec} {Hm : Prec_lt_emax prec emax}.
  Notation F := (FloatNum prec emax).
  Notation bf := (binary_float prec emax).
  Notation nan := (B754_nan : bf).

  Lemma mul_nan_l (x : bf) : f_mul nan x = nan.
  Proof. destruct x; reflexivity. Qed.
  Lemma scaled_nan (s : state F) : scaled s (nan : val F) = nan.
  Proof.
    unfold scaled, clip01. cbn [v_of_scl v_mul v_min v_max v_one v_zero FloatNum].
    assert (E : f_min f_one (f_max f_zero nan) = nan).
    { unfold f_min, f_max. cbn [is_nan f_zero]. rewrite (finite_not_nan prec emax _ (one_finite prec emax)). reflexivity. }
    rewrite E. apply mul_nan_r.
  Qed.
  Lemma halts_nan_p (s : state F) (v : val F) : halts_now s (nan : val F) v = false.
  Proof. unfold halts_now. cbn [v_ltb v_add FloatNum]. rewrite add_nan_r. apply ltb_nan. Qed.
  Lemma halts_nan_v (s : state F) (p : val F) : halts_now s p (nan : val F) = false.
  Proof. unfold halts_now. rewrite scaled_nan. cbn [v_ltb v_add FloatNum]. rewrite add_nan_l. apply ltb_nan. Qed.
  Lemma halted_nan (s : state F) : halted_at s (nan : val F) = false.
  Proof. unfold halted_at. cbn [v_ltb FloatNum]. apply ltb_nan. Qed.
  Lemma next_nan_p (s : state F) (v : val F) : next_p s (nan : val F) v = nan.
  Proof. unfold next_p. cbn [v_add FloatNum]. apply add_nan_l. Qed.
  Lemma next_nan_v (s : state F) (p : val F) : next_p s p (nan : val F) = nan.
  Proof. unfold next_p, weight. rewrite halts_nan_v, scaled_nan. cbn [v_add FloatNum]. apply add_nan_r. Qed.
  Lemma halted_of (s : state F) b (p : val F) : (probabilities s).[b] = Some p -> halted s b = Some (halted_at s p).
  Proof. intros H. exact (halted_get s b p H). Qed.

  (** A NaN probability is there for good. *)
  Lemma nan_stays (s : state F) cs b : wf s -> wf_pending s -> Forall call_wf cs -> (probabilities s).[b] = Some (nan : val F) ->
    (probabilities (run s cs)).[b] = Some (nan : val F).
  Proof.
    revert s. induction cs as [|c cs IH]; intros s W P Fc E; [exact E|]. inversion Fc; subst. rewrite run_cons.
    destruct (after_wf s c W P) as [W' P']; auto. pose proof (after_frame s c W P ltac:(assumption)) as Fr. apply IH; auto.
    destruct (nth_error_same_length (a_data (probabilities s)) (a_data (probabilities (after s c))) b nan) as [p' Hp']; auto.
    { rewrite (wf_batch_len s W), (wf_batch_len _ W'). pose proof (sf_p _ _ Fr) as X. unfold sig in X. injection X as X _. unfold batch_shape. congruence. }
    destruct (element_exists _ b p' W' Hp') as (r' & n' & El). rewrite Hp'.
    destruct (after_element s c b p' r' n' W P ltac:(assumption) El) as (p0 & r & n & (Hp0 & _) & Cases).
    assert (p0 = nan) by congruence. subst p0.
    destruct Cases as [(_ & -> & _)|[(h & v & _ & _ & _ & -> & _)|(_ & -> & _)]]; [reflexivity|now rewrite next_nan_p|reflexivity].
  Qed.
End Nan.

(** ** A NaN halting probability restarts an element that has finished. *)
Theorem C98_refuted (prec emax : Z) {Hp : Prec_gt_0 prec} {Hm : Prec_lt_emax prec emax} (s : state (FloatNum prec emax)) h s' b :
  wf s -> wf_pending s -> awf h -> iterate_act s h = Ok s' ->
  halted s b = Some true -> h.[b] = Some (B754_nan : binary_float prec emax) ->
  (** its result is still there, but the element is no longer halted; its probability is NaN *)
  same_element b s s' /\ halted s' b = Some false /\
  forall cs, Forall call_wf cs ->
    (** it stays so, whatever is done; [reset_batches] does not help *)
    (probabilities (run s' cs)).[b] = Some (B754_nan : binary_float prec emax) /\ halted (run s' cs) b = Some false /\
    (** and every later iteration counts and adds its update to the result *)
    forall h2 s2 v, awf h2 -> iterate_act (run s' cs) h2 = Ok s2 -> h2.[b] = Some v ->
      (forall n, (iterations (run s' cs)).[b] = Some n -> (iterations s2).[b] = Some (v_add (FloatNum prec emax) n (v_one (FloatNum prec emax)))) /\
      forall k t u t2, dget k (accumulators (run s' cs)) = Some t -> dget k (updates (run s' cs)) = Some u -> dget k (accumulators s2) = Some t2 ->
      forall l a ul a2, nth_error (leaves t) l = Some a -> nth_error (leaves u) l = Some ul -> nth_error (leaves t2) l = Some a2 ->
      forall R, a_shape a = batch_shape s ++ R -> forall j x y, j / size R = b -> a.[j] = Some x -> ul.[j] = Some y ->
        a2.[j] = Some (f_add (x : binary_float prec emax) (f_mul (effective_value s v) (y : binary_float prec emax))).
Proof.
  intros W P Ah E Hh Hb. destruct (iterate_committed s h s' W P Ah E) as (Cm & W' & P').
  apply halted_get_inv in Hh as (p & Hpb & Hh). symmetry in Hh.
  assert (Ep : (probabilities s').[b] = Some (B754_nan : binary_float prec emax)).
  { pose proof (cm_p _ _ _ Cm b p _ Hpb Hb) as X. now rewrite next_nan_v in X. }
  split; [now apply (iterate_frozen s h s' b p)|]. split; [rewrite (halted_of s' b _ Ep); now rewrite halted_nan|].
  intros cs Fc. pose proof (nan_stays s' cs b W' P' Fc Ep) as Er. split; [exact Er|]. split; [rewrite (halted_of _ b _ Er); now rewrite halted_nan|].
  destruct (run_wf s' cs W' P' Fc) as [W1 P1]. pose proof (run_frame s' cs W' P' Fc) as Fr.
  intros h2 s2 v A2 E2 Hv. destruct (iterate_committed _ h2 s2 W1 P1 A2 E2) as (Cm2 & _). split.
  - intros n Hn. pose proof (cm_i _ _ _ Cm2 b _ n Er Hn) as X. unfold next_i in X. now rewrite halted_nan in X.
  - intros k t u t2 Ht Hu Ht2 l a ul a2 Ha Hul Ha2 R HR j x y Hj Hx Hy.
    destruct (cm_acc _ _ _ Cm2 k t Ht) as (u' & t2' & Hu' & Ht2' & _ & _ & Eff).
    assert (u' = u) by congruence. assert (t2' = t2) by congruence. subst u' t2'.
    assert (BS : batch_shape (run s' cs) = batch_shape s).
    { pose proof (sf_p _ _ Fr) as X1. pose proof (cm_p_sig _ _ _ Cm) as X2. unfold sig in X1, X2. injection X1 as X1 _. injection X2 as X2 _. unfold batch_shape. congruence. }
    specialize (Eff l a ul a2 Ha Hul Ha2). unfold leaf_effect in Eff. rewrite BS in Eff.
    subst b. rewrite (Eff R HR j x y _ v Hx Hy Er Hv). f_equal.
    unfold next_a, weight. rewrite halted_nan, halts_nan_p. cbn [v_add v_mul FloatNum]. unfold scaled, effective_value, clip01.
    rewrite (sf_dep _ _ Fr), (cm_dep _ _ _ Cm). reflexivity.
Qed.
Print Assumptions C98_refuted.

(** ** A NaN halting probability for an element that is still running makes all of its results NaN, and it never finishes. *)
Theorem C98_running (prec emax : Z) {Hp : Prec_gt_0 prec} {Hm : Prec_lt_emax prec emax} (s : state (FloatNum prec emax)) h s' b :
  wf s -> wf_pending s -> awf h -> iterate_act s h = Ok s' ->
  halted s b = Some false -> h.[b] = Some (B754_nan : binary_float prec emax) ->
  (forall k t', dget k (accumulators s') = Some t' -> forall l a', nth_error (leaves t') l = Some a' ->
     forall R, a_shape a' = batch_shape s ++ R -> forall j y, j / size R = b -> a'.[j] = Some y -> y = (B754_nan : binary_float prec emax)) /\
  forall cs, Forall call_wf cs -> (probabilities (run s' cs)).[b] = Some (B754_nan : binary_float prec emax) /\ halted (run s' cs) b = Some false.
Proof.
  intros W P Ah E Hh Hb. destruct (iterate_committed s h s' W P Ah E) as (Cm & W' & P').
  apply halted_get_inv in Hh as (p & Hpb & Hh). symmetry in Hh.
  assert (Ep : (probabilities s').[b] = Some (B754_nan : binary_float prec emax)).
  { pose proof (cm_p _ _ _ Cm b p _ Hpb Hb) as X. now rewrite next_nan_v in X. }
  split.
  - intros k t' Ht' l a' Ha' R HR j y Hj Hy.
    assert (exists t, dget k (accumulators s) = Some t) as [t Ht].
    { apply dget_keys. rewrite <- (cm_keys_a _ _ _ Cm). apply dget_keys. eauto. }
    destruct (cm_acc _ _ _ Cm k t Ht) as (u & t2 & Hu & Ht2 & [_ Al] & Len & Eff). assert (t2 = t') by congruence. subst t2.
    destruct (proj1 (iterate_ok_iff s h W P Ah) (ex_intro _ _ E)) as (_ & _ & Rd).
    destruct (Rd k t Ht) as (u' & Hu' & _ & CA). assert (u' = u) by congruence. subst u'. apply Forall2_nth in CA as [_ CA].
    destruct (nth_error_same_length (leaves t') (leaves t) l a') as [a Ha]; [|exact Ha'|].
    { apply (f_equal (@length _)) in Al. now rewrite !map_length in Al. }
    destruct (nth_error_same_length (leaves t) (leaves u) l a) as [ul Hul]; [now symmetry|exact Ha|].
    destruct (CA l a ul Ha Hul) as [Sh _].
    assert (Sa : a_shape a' = a_shape a).
    { apply (f_equal (fun x => nth_error x l)) in Al. rewrite !nth_error_map, Ha', Ha in Al. cbn in Al. injection Al as Al _. exact Al. }
    pose proof (Forall_nth _ _ _ _ (wf_acc _ W k t Ht) Ha) as [Wa _].
    pose proof (Forall_nth _ _ _ _ (P k u Hu) Hul) as Wu.
    pose proof (Forall_nth _ _ _ _ (wf_acc _ W' k t' Ht') Ha') as [Wa' _].
    unfold awf, twf in Wa, Wu, Wa'. fold (a_data a) (a_shape a) in Wa. fold (a_data ul) (a_shape ul) in Wu. fold (a_data a') (a_shape a') in Wa'.
    destruct (nth_error_same_length (a_data a') (a_data a) j y) as [x Hx]; [congruence|exact Hy|].
    destruct (nth_error_same_length (a_data a') (a_data ul) j y) as [z Hz]; [congruence|exact Hy|].
    subst b. pose proof (Eff l a ul a' Ha Hul Ha' R ltac:(congruence) j x z p _ Hx Hz Hpb Hb) as X.
    rewrite Hy in X. injection X as ->. unfold next_a, weight. rewrite Hh, halts_nan_v, scaled_nan. cbn [v_add v_mul FloatNum].
    rewrite mul_nan_l. apply add_nan_r.
  - intros cs Fc. pose proof (nan_stays s' cs b W' P' Fc Ep) as Er. split; [exact Er|]. rewrite (halted_of _ b _ Er). now rewrite halted_nan.
Qed.
Print Assumptions C98_running.

(** ** [execute_act] on layers in the style of the docstring: if one of the iterations made produces a NaN halting probability
    for one element, finished or not, then the element is reported as running, and all [max_iterations] iterations are made. *)
Theorem C98_execute_act (prec emax : Z) {Hp : Prec_gt_0 prec} {Hm : Prec_lt_emax prec emax}
  (c0 : state (FloatNum prec emax)) next upd halt lazy init dep bound check c' u' b :
  wf c0 -> fresh c0 -> (forall k, step_fits c0 (upd (nth_state next k init)) (halt (nth_state next k init))) ->
  execute_act (simple_layer c0 next upd halt lazy) init dep bound check = Ok (c', u') ->
  exists n, u' = nth_state next n init /\
    forall k, k < n -> (halt (nth_state next k init)).[b] = Some (B754_nan : binary_float prec emax) ->
      (probabilities c').[b] = Some (B754_nan : binary_float prec emax) /\ halted c' b = Some false /\ Z.of_nat n = bound.
Proof.
  intros W Fr Fi H.
  destruct (execute_history _ _ _ _ _ _ _ _ _ _ _ (wf_proper _ W) H) as (n & U & L & S & R & C & M). exists n. split; [exact U|].
  intros k Hk Hb. pose proof (Samples.fresh_wf_pending _ Fr) as P. pose proof (ie_wf c0 next upd halt init Fi n) as Cw.
  assert (Hbs : b < size (batch_shape c0)).
  { destruct (Fi k) as (_ & _ & _ & Aw & Sh & _). unfold awf, twf in Aw. unfold a_shape in Sh. rewrite Sh in Aw. rewrite <- Aw. now apply nth_error_some_lt in Hb. }
  destruct (ie_prob c0 next upd halt init W Fr Fi n b Hbs) as (p & r & m & El).
  assert (E : p = (B754_nan : binary_float prec emax)).
  { refine (run_element_values (N := FloatNum prec emax) (fun _ => True) (fun vs x _ _ => In (B754_nan : binary_float prec emax) vs -> x = (B754_nan : binary_float prec emax))
      c0 _ b (loop_calls next upd halt n init) c0 [] eq_refl eq_refl W P Cw _ _ _ p r m El _).
    - intros vs x _ _ v I _ X. apply in_app_or in X as [X|[->|[]]]; [rewrite (I X); apply next_nan_p|apply next_nan_v].
    - apply (loop_no_reset next upd halt n init).
    - apply Forall_forall. intros c _. apply Forall_forall. auto.
    - intros x _ _ _ [].
    - cbn [app]. rewrite R, (ie_values c0 next upd halt init Fi) by exact Hbs. unfold halting_inputs. apply in_map_iff. exists k. split; [|apply in_seq; lia].
      exact (nth_error_nth _ _ _ Hb). }
  subst p. destruct El as (Ep & _). rewrite <- (ss_p _ _ S) in Ep. split; [exact Ep|]. split; [rewrite (halted_of _ b _ Ep); now rewrite halted_nan|].
  destruct C as [C|C]; [exfalso|lia]. specialize (C _ (nth_error_In _ _ Ep)). cbn [v_ltb FloatNum] in C. rewrite ltb_nan in C. discriminate.
Qed.
Print Assumptions C98_execute_act.

(** ** Everything else is ignored: if no halting probability of the finished element is NaN, then its result does not change and it
    stays halted, whatever the updates (NaN and infinities included) and whatever happens to the other elements (NaN included). *)
Theorem C98_partial (prec emax : Z) {Hp : Prec_gt_0 prec} {Hm : Prec_lt_emax prec emax} (s : state (FloatNum prec emax)) cs b p :
  (2 <= prec)%Z -> wf s -> wf_pending s -> Forall call_wf cs -> Forall (fun c => c <> CReset) cs ->
  eps_ok (epsilon s) -> dep_ok prec emax (depression_constant s) ->
  (probabilities s).[b] = Some p -> funit (p : binary_float prec emax) -> halted s b = Some true ->
  Forall (fun c => Forall (fun v : val (FloatNum prec emax) => is_nan (v : binary_float prec emax) = false) (value_of b c)) cs ->
  same_element b s (run s cs) /\ halted (run s cs) b = Some true.
Proof.
  intros H2 W P Fc R He Hd Hpb Up Hh G. rewrite (halted_of s b p Hpb) in Hh. injection Hh as Hh.
  revert s W P He Hd p Hpb Up Hh. induction cs as [|c cs IH]; intros s W P He Hd p Hpb Up Hh.
  { split; [now apply same_element_refl|]. change (run s []) with s. rewrite (halted_of s b p Hpb). f_equal. exact Hh. }
  inversion Fc; inversion G; inversion R; subst. rewrite run_cons.
  destruct (after_wf s c W P) as [W' P']; auto. pose proof (after_frame s c W P ltac:(assumption)) as Fr.
  assert (E1 := sf_eps _ _ Fr). assert (E2 := sf_dep _ _ Fr).
  destruct (same_settings s (after s c) E1 E2) as (_ & _ & _ & _ & N5 & _).
  destruct (nth_error_same_length (a_data (probabilities s)) (a_data (probabilities (after s c))) b p) as [p' Hp']; [|exact Hpb|].
  { rewrite (wf_batch_len s W), (wf_batch_len _ W'). pose proof (sf_p _ _ Fr) as X. unfold sig in X. injection X as X _. unfold batch_shape. congruence. }
  destruct (element_exists _ b p' W' Hp') as (r' & n' & El).
  destruct (after_element s c b p' r' n' W P ltac:(assumption) El) as (p0 & r & n & (Hp0 & _) & Cases).
  assert (p0 = p) by congruence. subst p0.
  assert (Q : funit (p' : binary_float prec emax) /\ halted_at (after s c) p' = true).
  { rewrite N5. destruct Cases as [(_ & -> & _)|[(h & v & -> & _ & Hv & -> & _)|(-> & _)]]; [split; assumption| |congruence].
    assert (Nv : is_nan (v : binary_float prec emax) = false).
    { match goal with Q : Forall _ (value_of b (CIter h)) |- _ => cbn [value_of] in Q; rewrite Hv in Q; now inversion Q end. }
    split; [apply (step_unit prec emax H2 s He Hd p v Up Nv)|apply (step_stays prec emax H2 s He Hd p v); auto]. }
  destruct Q as [Up' Hh'].
  destruct (IH ltac:(assumption) ltac:(assumption) ltac:(assumption) (after s c) W' P' ltac:(now rewrite E1) ltac:(now rewrite E2) p' Hp' Up' Hh') as [IH1 IH2].
  split; [|exact IH2]. apply (same_element_trans b s (after s c)); auto.
  unfold after in *. destruct (apply_call s c) as [s1|e] eqn:E; [|now apply same_element_refl].
  destruct c as [name item|h|]; cbn [apply_call call_wf] in *; [| |congruence].
  - apply cache_same in E. subst s1. now apply same_element_refl.
  - now apply (iterate_frozen s h s1 b p).
Qed.
Print Assumptions C98_partial.

(** ** Cases *)
(** Element 0 halts in the first iteration with result 1; in the second the layer computes NaN for it; the third, with the
    halting value 1/2 and the update 1, makes its result 3/2, and not even the reset in between has helped. *)
Definition nan32 : val N32 := B754_nan.
Definition half32 : list (call N32) := step32 (f32 1 1) (f32 1 10).
Example C98_case : let c := ctl32 (py_div 1 10) in let s := run c half32 in
  let spoilt := run s (step32 nan32 (f32 1 10)) in
  wf s /\ halted s 0 = Some true /\ is_ok (iterate_act (run s (firstn 1 (step32 nan32 (f32 1 10)))) (arr32 [2] [nan32; f32 1 10])) = true /\
  halted spoilt 0 = Some false /\
  map bits (flat_map leaves (map snd (accumulators s))) = [[B2SF (f32 1 1); B2SF (f32 2 10)]] /\
  map (fun a => firstn 1 (bits a)) (flat_map leaves (map snd (accumulators spoilt))) = [[B2SF (f32 1 1)]] /\
  map (fun a => firstn 1 (bits a)) (flat_map leaves (map snd (accumulators (run spoilt (CReset :: step32 (f32 1 2) (f32 1 10)))))) = [[B2SF (f32 3 2)]] /\
  bits (probabilities (run spoilt (CReset :: half32))) <> bits (probabilities spoilt) /\
  firstn 1 (bits (probabilities (run spoilt (CReset :: half32)))) = [SpecFloat.S754_nan].
Proof.
  assert (Se : BuilderFacts.eps_sane (N := N32) (py_div 1 10)) by (split; vm_compute; reflexivity).
  destruct (ctl32_ok _ Se) as (W & F & P). cbv zeta. split.
  - apply (run_wf _ half32 W P). repeat constructor.
  - repeat split; try (vm_compute; reflexivity). vm_compute. discriminate.
Qed.
(** Element 0 of the same controller is given NaN and infinite updates, element 1 NaN halting probabilities. *)
Definition wild32 : list (call N32) :=
  [CCache (N := N32) "x" (Leaf (arr32 [2] [nan32; B754_infinity false])); CIter (N := N32) (arr32 [2] [B754_infinity true; nan32])].
Example C98_partial_case : let s := run (ctl32 (py_div 1 10)) half32 in
  halted s 0 = Some true /\ Forall call_wf wild32 /\
  Forall (fun c => Forall (fun v : val N32 => is_nan (v : binary_float 24 128) = false) (value_of 0 c)) wild32 /\ length (returned s wild32) = 2 /\
  funit (nth 0 (a_data (probabilities s)) f_zero : binary_float 24 128) /\
  map bits (flat_map leaves (map snd (accumulators (run s wild32)))) = [[B2SF (f32 1 1); SpecFloat.S754_nan]].
Proof.
  cbv zeta. split; [vm_compute; reflexivity|]. split; [repeat constructor|]. split; [repeat constructor|]. split; [vm_compute; reflexivity|].
  split; [|vm_compute; reflexivity]. apply unit_by_computation; vm_compute; reflexivity.
Qed.
(** A layer that diverges: its state is squared in every iteration, the halting value is x*x - x. The first element, 2^100, halts at
    once; in the next iteration its halting value is inf - inf. The second element, 3/2, halts in the second iteration. All four
    iterations are made, and the result of the first element is NaN. *)
Definition pair_of (u : tree (array N32)) : val N32 * val N32 :=
  match u with Leaf a => (nth 0 (a_data a) f_zero, nth 1 (a_data a) f_zero) | _ => (f_zero : val N32, f_zero : val N32) end.
Definition squares (u : tree (array N32)) : tree (array N32) :=
  let (x, y) := pair_of u in Leaf (arr32 [2] [f_mul (x : binary_float 24 128) x; f_mul (y : binary_float 24 128) y]).
Definition haltD (u : tree (array N32)) : array N32 :=
  let (x, y) := pair_of u in
  arr32 [2] [f_sub (f_mul (x : binary_float 24 128) x) x; f_sub (f_mul (y : binary_float 24 128) y) y].
Definition onesD (u : tree (array N32)) : dict (tree (array N32)) := [("x", Leaf (arr32 [2] [f32 1 1; f32 1 1]))].
Definition initD : tree (array N32) := Leaf (arr32 [2] [f32 (2 ^ 100) 1; f32 3 2]).
Definition diverging (bound : Z) := execute_act (simple_layer (ctl32 (py_div 1 10)) squares onesD haltD (fun _ _ => Ok tt)) initD (py_div 1 1 : scl N32) bound true.
Example C98_execute_case : wf (ctl32 (py_div 1 10)) /\ fresh (ctl32 (py_div 1 10)) /\
  (forall k, step_fits (ctl32 (py_div 1 10)) (onesD (nth_state squares k initD)) (haltD (nth_state squares k initD))) /\
  bits (haltD (nth_state squares 1 initD)) <> [] /\ nth_error (bits (haltD (nth_state squares 1 initD))) 0 = Some SpecFloat.S754_nan /\
  match diverging 1, diverging 4 with
  | Ok (c1, _), Ok (c4, _) =>
      bits (probabilities c1) = [B2SF (f32 1 1); B2SF (f32 3 4)] /\ map bits (flat_map leaves (map snd (accumulators c1))) = [[B2SF (f32 1 1); B2SF (f32 3 4)]] /\
      bits (probabilities c4) = [SpecFloat.S754_nan; B2SF (f32 1 1)] /\ map bits (flat_map leaves (map snd (accumulators c4))) = [[SpecFloat.S754_nan; B2SF (f32 1 1)]] /\
      bits (iterations c4) = [B2SF (f32 3 1); B2SF (f32 2 1)]
  | _, _ => False
  end.
Proof.
  assert (Se : BuilderFacts.eps_sane (N := N32) (py_div 1 10)) by (split; vm_compute; reflexivity).
  destruct (ctl32_ok _ Se) as (W & Fr & P). split; [exact W|]. split; [exact Fr|]. split.
  { intros k. generalize (nth_state squares k initD). intros u. split; [repeat constructor; cbn; tauto|].
    split; [intros x; change (dkeys (accumulators (ctl32 (py_div 1 10)))) with ["x"]; reflexivity|].
    split; [|unfold haltD; destruct (pair_of u); repeat split].
    intros x t v Ht Hv. unfold onesD in Hv. cbn [dget] in Hv. destruct (String.eqb_spec x "x") as [->|]; [|discriminate].
    injection Hv as <-. change (Some (Leaf (arr32 [2] [f32 0 1; f32 0 1])) = Some t) in Ht. apply GravesFacts.Some_inj in Ht. subst t.
    split; [reflexivity|]. split; repeat constructor. }
  split; [vm_compute; discriminate|]. split; [vm_compute; reflexivity|]. vm_compute. repeat split.
Qed.
