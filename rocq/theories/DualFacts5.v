(** * Proofs: controllers moved along homomorphisms; straight lines (for PropsDual.v) *)
From Coq Require Import QArith Qcanon Lia ZArith.
From Verif Require Import Base PyTree Tensor Num Utils States Controller Viewer Layers Wf Spec History ElementSpec ScalarSpec StateSpec LayerSpec TraceSpec Jit JitSpec SlopeSpec Dual DualSpec.
From Verif Require Import BaseFacts TensorFacts PyTreeFacts QcFacts ControllerFacts IterateFacts HistoryFacts AgreeFacts GravesFacts ExactFacts ScalarFacts ScriptFacts TraceFacts TraceFacts2 MoveFacts JitFacts
  StateFacts LayerFacts LayerFacts2 LayerFacts3 LayerFacts4 LoopFacts IeeeLoopFacts2 DualFacts DualFacts2 DualFacts3 DualFacts4.
From Verif Require Import PropsController PropsScalar PropsLoop.
Close Scope Qc_scope. Close Scope Q_scope. Close Scope R_scope. Close Scope Z_scope. Open Scope string_scope. Open Scope list_scope. Open Scope nat_scope.

(** ** Homomorphisms *)
Record homomorphism {N M : numsys} (f : val N -> val M) (g : scl N -> scl M) : Prop := {
  h_zero : v_zero M = f (v_zero N); h_one : v_one M = f (v_one N);
  h_add : forall x y, v_add M (f x) (f y) = f (v_add N x y); h_sub : forall x y, v_sub M (f x) (f y) = f (v_sub N x y);
  h_mul : forall x y, v_mul M (f x) (f y) = f (v_mul N x y);
  h_max : forall x y, v_max M (f x) (f y) = f (v_max N x y); h_min : forall x y, v_min M (f x) (f y) = f (v_min N x y);
  h_ltb : forall x y, v_ltb M (f x) (f y) = v_ltb N x y;
  h_scl : forall s, v_of_scl M (g s) = f (v_of_scl N s); h_sub1 : forall s, s_one_sub M (g s) = g (s_one_sub N s)
}.
Section Hom.
  Context {N M : numsys} (f : val N -> val M) (g : scl N -> scl M) (H : homomorphism f g).
  Notation R := (fun x y => y = f x).
  Notation mv := (move (N := N) (M := M) f g).
  Notation rel e d := (rs (N := N) (M := M) R e (g e) d (g d)).
  Lemma hom_thr e x y : y = f x -> v_ltb N (v_of_scl N (s_one_sub N e)) x = v_ltb M (v_of_scl M (s_one_sub M (g e))) y.
  Proof. intros ->. now rewrite (h_sub1 _ _ H), (h_scl _ _ H), (h_ltb _ _ H). Qed.
  Ltac ops := first [exact (h_zero _ _ H)|exact (h_one _ _ H)|intros ? ? ? ? -> ->; first [exact (h_add _ _ H _ _)|exact (h_sub _ _ H _ _)|exact (h_mul _ _ H _ _)|exact (h_max _ _ H _ _)|exact (h_min _ _ H _ _)]
    |intros; now apply hom_thr|exact (h_scl _ _ H _)].
  Lemma hom_rel s : rel (epsilon s) (depression_constant s) s (mv s).
  Proof. now apply (rs_move f g). Qed.
  Lemma rel_hom e d s s' : rel e d s s' -> s' = mv s.
  Proof. intros X. apply (rs_move f g) in X. apply X. Qed.
  Lemma rr_hom e d r r' : rr (rel e d) r r' -> r' = outcome_map mv r.
  Proof. intros X. apply rr_outcome. revert X. apply rr_mono. intros a b. apply rel_hom. Qed.
  Lemma hom_call s c : apply_call (mv s) (move_call f c) = outcome_map mv (apply_call s c).
  Proof.
    apply (rr_hom (epsilon s) (depression_constant s)). apply (rs_call (N := N) (M := M) R); try ops; [apply hom_rel|now apply rcall_move].
  Qed.
  Lemma hom_run cs s : run (mv s) (map (move_call f) cs) = mv (run s cs).
  Proof.
    apply (rel_hom (epsilon s) (depression_constant s)). apply (rs_run (N := N) (M := M) R); try ops; [|apply hom_rel].
    induction cs; cbn; constructor; auto. now apply rcall_move.
  Qed.
  Lemma hom_halted s : halted_batches (mv s) = halted_batches s.
  Proof. symmetry. apply (rs_halted (N := N) (M := M) R (epsilon s) (g (epsilon s)) (depression_constant s) (g (depression_constant s))); [intros; now apply hom_thr|apply hom_rel]. Qed.
  Lemma hom_views s : unhalted_only (mv s) = outcome_map mv (unhalted_only s) /\ halted_only (mv s) = outcome_map mv (halted_only s).
  Proof.
    destruct (rs_halted_views (N := N) (M := M) R) with (e := epsilon s) (e' := g (epsilon s)) (d := depression_constant s) (d' := g (depression_constant s)) (s := s) (s' := mv s) as [A B];
      try ops; [apply hom_rel|]. split; eapply rr_hom; eauto.
  Qed.
  Lemma ret_hom e d r : returns_settings e d r -> rret (N := N) (M := M) R e (g e) d (g d) r (move_ret f g r).
  Proof.
    destruct r as [is|t]; cbn; [|intros _; now apply rt_move]. induction 1 as [|i is Hi _ IH]; cbn; constructor; auto.
    destruct i as [|c|t]; cbn; auto; [|now apply rt_move]. destruct Hi as [<- <-]. apply hom_rel.
  Qed.
  Lemma hom_execute (l : layer N) (l' : layer M) init dep dep' e d bound check c :
    l_make_controller l init dep = Ok (MCtrl c) -> epsilon c = e -> depression_constant c = d ->
    l_make_controller l' (move_tree f init) dep' = Ok (MCtrl (mv c)) ->
    l_setup_lazy l' (mv c) (move_tree f init) = l_setup_lazy l c init ->
    (forall c u, epsilon c = e -> depression_constant c = d ->
       l_run_iteration l' (mv c) (move_tree f u) = outcome_map (move_ret f g) (l_run_iteration l c u) /\
       forall r, l_run_iteration l c u = Ok r -> returns_settings e d r) ->
    execute_act l' (move_tree f init) dep' bound check = outcome_map (fun p => (mv (fst p), move_tree f (snd p))) (execute_act l init dep bound check).
  Proof.
    intros Mk Ec Dc Mk' Lz SC. unfold execute_act, wrapped_make_controller. rewrite Mk, Mk'. cbn [bind].
    assert (V : (if check then validate_made (MCtrl (mv c)) else Ok tt) = (if check then validate_made (MCtrl c) else Ok tt)).
    { destruct check; [|reflexivity]. cbn. destruct (accumulators c); reflexivity. }
    rewrite V. destruct (if check then validate_made (MCtrl c) else Ok tt) as [[]|x]; cbn [bind outcome_map]; [|reflexivity].
    rewrite Lz. destruct (l_setup_lazy l c init) as [[]|x]; cbn [bind outcome_map]; [|reflexivity].
    assert (W : rr (rcarry (N := N) (M := M) R e (g e) d (g d)) (while_loop (run_layer_adapter check l) (c, init, mkM 0 bound))
      (while_loop (run_layer_adapter check l') (mv c, move_tree f init, mkM 0 bound))).
    { apply (rs_while (N := N) (M := M) R); [intros; now apply hom_thr| |].
      - intros c0 c' u u' Rc Ru. assert (E0 := rs_eps _ _ _ _ _ _ _ Rc). assert (D0 := rs_dep _ _ _ _ _ _ _ Rc).
        apply rel_hom in Rc. apply rt_move in Ru. subst c' u'. destruct (SC c0 u E0 D0) as [X Y]. rewrite X. destruct (l_run_iteration l c0 u) as [r|x]; cbn; [|reflexivity].
        now apply ret_hom, Y.
      - split; [|reflexivity]. split; cbn [fst snd]; [|now apply rt_move]. subst e d. apply hom_rel. }
    destruct (while_loop (run_layer_adapter check l) _) as [[[c1 u1] m1]|x1], (while_loop (run_layer_adapter check l') _) as [[[c2 u2] m2]|x2];
      cbn [bind outcome_map rr] in *; try contradiction; [|congruence].
    destruct W as [[A B] _]. cbn [fst snd] in *. apply rel_hom in A. apply rt_move in B. now subst.
  Qed.
  Lemma hom_call_rel e d s c : rel e d s (mv s) -> rr (rel e d) (apply_call s c) (apply_call (mv s) (move_call f c)).
  Proof. intros X. apply (rs_call (N := N) (M := M) R); try ops; [exact X|now apply rcall_move]. Qed.
  Lemma hom_strictly cs : forall s e d, rel e d s (mv s) -> rr (rel e d) (strictly s cs) (strictly (mv s) (map (move_call f) cs)).
  Proof.
    induction cs as [|c cs IH]; intros s e d X; cbn [strictly map]; [exact X|]. pose proof (hom_call_rel e d s c X) as Y.
    destruct (apply_call s c) as [s1|], (apply_call (mv s) (move_call f c)) as [s2|]; cbn [rr] in *; try contradiction; [|exact Y].
    pose proof (rel_hom _ _ _ _ Y) as ->. now apply IH.
  Qed.
  Lemma hom_simple c0 c0' (p : parts N) (p' : parts M) lazy lazy' e d :
    (forall u, p_next p' (move_tree f u) = move_tree f (p_next p u) /\ p_updates p' (move_tree f u) = move_dict f (p_updates p u) /\
               p_halting p' (move_tree f u) = move_array f (p_halting p u)) ->
    forall c u, epsilon c = e -> depression_constant c = d ->
       l_run_iteration (layer_of c0' p' lazy') (mv c) (move_tree f u) = outcome_map (move_ret f g) (l_run_iteration (layer_of c0 p lazy) c u) /\
       forall r, l_run_iteration (layer_of c0 p lazy) c u = Ok r -> returns_settings e d r.
  Proof.
    intros P c u Ec Dc. destruct (P u) as (P1 & P2 & P3). cbn [layer_of simple_layer l_run_iteration].
    assert (EQ : simple_calls (p_updates p') (p_halting p') (move_tree f u) = map (move_call f) (simple_calls (p_updates p) (p_halting p) u)).
    { unfold simple_calls. rewrite map_app, P2, P3. unfold move_dict. rewrite !map_map. reflexivity. }
    rewrite EQ. pose proof (hom_strictly (simple_calls (p_updates p) (p_halting p) u) c e d) as Q. specialize (Q ltac:(subst e d; apply hom_rel)).
    destruct (strictly c _) as [c1|], (strictly (mv c) _) as [c2|]; cbn [rr outcome_map] in *; try contradiction.
    - pose proof (rel_hom _ _ _ _ Q) as E2. subst c2. split; [cbn [move_ret map move_item]; now rewrite P1|].
      intros r [= <-]. constructor; [|constructor; [exact I|constructor]]. split; [apply (rs_eps _ _ _ _ _ _ _ Q)|apply (rs_dep _ _ _ _ _ _ _ Q)].
    - split; [congruence|discriminate].
  Qed.
End Hom.

(** ** The ones of interest *)
Lemma values_hom : homomorphism (N := DualNum) (M := QcNum) fst fst.
Proof. constructor; reflexivity. Qed.
Lemma choose_constant z x y : choose z (constant x) (constant y) = constant z.
Proof. unfold choose, constant. apply injective_projections; cbn [fst snd]; [reflexivity|ring]. Qed.
Lemma constants_hom : homomorphism (N := QcNum) (M := DualNum) constant constant.
Proof.
  constructor; intros; try reflexivity; unfold constant; cbn; try (apply injective_projections; cbn; [reflexivity|qring]); apply choose_constant.
Qed.
Lemma choose_stretch k z x y : choose z (stretch k x) (stretch k y) = stretch k (choose z x y).
Proof. unfold choose, stretch. apply injective_projections; cbn [fst snd]; [reflexivity|ring]. Qed.
Lemma stretch_hom k : homomorphism (N := DualNum) (M := DualNum) (stretch k) (stretch k).
Proof.
  constructor; intros; try reflexivity; try (apply injective_projections; cbn; [reflexivity|qring]); cbn [v_max v_min DualNum stretch fst]; apply choose_stretch.
Qed.

(** ** Moving twice *)
Section Compose.
  Context {N M P : numsys} (f : val N -> val M) (g : scl N -> scl M) (f' : val M -> val P) (g' : scl M -> scl P) (h : val N -> val P) (h' : scl N -> scl P).
  Context (Hf : forall x, f' (f x) = h x) (Hg : forall x, g' (g x) = h' x).
  Lemma move_array_twice a : move_array f' (move_array f a) = move_array h a.
  Proof. destruct a as [d [sh v]]. unfold move_array, tensor_map. cbn. do 2 f_equal. rewrite map_map. now apply map_ext. Qed.
  Lemma move_tree_twice t : move_tree f' (move_tree f t) = move_tree h t.
  Proof.
    apply tree_ext; [now rewrite !structure_move|]. rewrite !leaves_move, map_map. apply map_ext. exact move_array_twice.
  Qed.
  Lemma move_dict_twice d : move_dict f' (move_dict f d) = move_dict h d.
  Proof. unfold move_dict. rewrite map_map. apply map_ext. intros [k t]. cbn [fst snd]. now rewrite move_tree_twice. Qed.
  Lemma move_twice s : move f' g' (move f g s) = move h h' s.
  Proof. unfold move. cbn [epsilon iterations residuals probabilities defaults accumulators updates depression_constant error_mode]. now rewrite !move_array_twice, !move_dict_twice, !Hg. Qed.
  Lemma move_call_twice c : move_call f' (move_call f c) = move_call h c.
  Proof. destruct c; cbn [move_call]; f_equal; [apply move_tree_twice|apply move_array_twice]. Qed.
End Compose.
Section Identity.
  Context {N : numsys} (f : val N -> val N) (g : scl N -> scl N) (Hf : forall x, f x = x) (Hg : forall x, g x = x).
  Lemma move_array_id a : move_array f a = a.
  Proof. destruct a as [d [sh v]]. unfold move_array, tensor_map. cbn. do 2 f_equal. rewrite <- (map_id v) at 2. now apply map_ext. Qed.
  Lemma move_tree_id t : move_tree f t = t.
  Proof.
    apply tree_ext; [now rewrite structure_move|]. rewrite leaves_move. rewrite <- (map_id (leaves t)) at 2. apply map_ext. exact move_array_id.
  Qed.
  Lemma move_dict_id d : move_dict f d = d.
  Proof. unfold move_dict. rewrite <- (map_id d) at 2. apply map_ext. intros [k t]. cbn [fst snd]. now rewrite move_tree_id. Qed.
  Lemma move_id s : move f g s = s.
  Proof. destruct s as [x1 x2 x3 x4 x5 x6 x7 x8 x9]. unfold move. cbn [epsilon iterations residuals probabilities defaults accumulators updates depression_constant error_mode]. now rewrite !move_array_id, !move_dict_id, !Hg. Qed.
  Lemma move_call_id c : move_call f c = c.
  Proof. destruct c; cbn [move_call]; f_equal; [apply move_tree_id|apply move_array_id]. Qed.
End Identity.

(** ** Straight lines *)
Section Lines.
  Context (s : state DualNum) (cs : list (call DualNum)).
  Definition lined : state CurveNum := move (N := DualNum) (M := CurveNum) line line s.
  Definition lined_call (c : call DualNum) : call CurveNum := move_call (N := DualNum) (M := CurveNum) line c.
  Lemma lined_dual : dual_state lined = s.
  Proof. unfold dual_state, lined. rewrite (move_twice (N := DualNum) (M := CurveNum) (P := DualNum) line line snd snd (fun x => x) (fun x => x)) by reflexivity. now apply (move_id (N := DualNum)). Qed.
  Lemma lined_dual_call c : dual_call (lined_call c) = c.
  Proof. unfold dual_call, lined_call. rewrite (move_call_twice (N := DualNum) (M := CurveNum) (P := DualNum) line snd (fun x => x)) by reflexivity. now apply (move_call_id (N := DualNum)). Qed.
  Lemma line_at t x : at_time t (line x) = along t x.
  Proof. unfold at_time, line, along. cbn [fst]. destruct (Qc_eq_dec (snd x) 0) as [->|]; [ring|reflexivity]. Qed.
  Lemma line_zero : line ((0, 0)%Qc : dual) = v_zero CurveNum.
  Proof. reflexivity. Qed.
  Lemma lined_at t : state_at t lined = moved t s.
  Proof. unfold state_at, lined, moved. apply (move_twice (N := DualNum) (M := CurveNum) (P := QcNum)); intros x; apply line_at. Qed.
  Lemma lined_call_at t c : call_at t (lined_call c) = moved_call t c.
  Proof. unfold call_at, lined_call, moved_call. apply (move_call_twice (N := DualNum) (M := CurveNum) (P := QcNum)). intros x. apply line_at. Qed.
  Lemma line_smooth x : smooth (line x).
  Proof.
    exists 0%Qc, 1%Qc. split; [reflexivity|]. intros t _ _. change (fst (line x) t) with (at_time t (line x)). rewrite line_at. unfold along. cbn [line fst snd].
    assert (E : (0 * (t * t) = 0)%Qc) by ring. rewrite E. generalize (fst x + t * snd x)%Qc. clear. intros y. split; revert y; qc.
  Qed.
  Lemma line_smooth_array a : smooth_array (move_array (N := DualNum) (M := CurveNum) line a).
  Proof. unfold smooth_array, move_array, a_data, tensor_map. cbn [a_ten data]. apply Forall_map. apply Forall_forall. intros x _. apply line_smooth. Qed.
  Lemma line_smooth_tree t : smooth_tree (move_tree (N := DualNum) (M := CurveNum) line t).
  Proof. unfold smooth_tree. rewrite leaves_move. apply Forall_map, Forall_forall. intros a _. apply line_smooth_array. Qed.
  Lemma lined_smooth : smooth_state lined.
  Proof.
    split; [apply line_smooth|]. split; [apply line_smooth|]. intros k x E. apply (dget_move_inv (N := DualNum) (M := CurveNum)) in E as (t & _ & ->). apply line_smooth_tree.
  Qed.
  Lemma lined_call_smooth c : smooth_call (lined_call c).
  Proof. destruct c; cbn; [apply line_smooth_tree|apply line_smooth_array|exact I]. Qed.
  Lemma lined_off_corners i : clear_of_corners s cs i -> off_corners lined (map lined_call cs) i.
  Proof.
    intros C before h after E s1 A p v Hh Hp Hv. unfold s1 in *. clear s1.
    apply map_eq_app in E as (b & rest & -> & Eb & Er). destruct rest as [|c rest]; [discriminate|]. cbn [map] in Er. injection Er as Ec _.
    destruct c as [| h0 |]; try discriminate. injection Ec as <-.
    assert (M1 : map dual_call before = b).
    { rewrite <- Eb, map_map. rewrite <- (map_id b) at 2. apply map_ext. exact lined_dual_call. }
    rewrite M1, lined_dual in *. change (dual_call (CIter (move_array (N := DualNum) (M := CurveNum) line h0))) with (dual_call (lined_call (CIter h0))) in A. rewrite lined_dual_call in A.
    assert (Hv' : exists w : dual, nth_error (a_data h0) i = Some w /\ v = line w).
    { unfold move_array, a_data, tensor_map in Hv. cbn [a_ten data] in Hv. rewrite nth_error_map in Hv. unfold a_data. destruct (nth_error (data (a_ten h0)) i) as [w|]; [|discriminate].
      cbn in Hv. injection Hv as <-. eauto. }
    destruct Hv' as (w & Hw & ->). destruct (C b h0 rest eq_refl A p w Hh Hp Hw) as [X Y]. split; [|exact Y]. cbn [line fst snd].
    destruct X as [X|X]; [left; exact X|right]. split; [exact X|]. apply near_all. intros t. change (at_time t (line w) = fst w). rewrite line_at. unfold along. change (fst w + t * snd w = fst w)%Qc. rewrite X. ring.
  Qed.
End Lines.
