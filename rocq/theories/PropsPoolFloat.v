(** * Everything a user can get hold of is in range in IEEE-754 arithmetic (C90).

    Vocabulary: PoolSpec.v, HeapSpec.v, FloatNum.v, FloatSpec.v ([funit]: a finite number between
    zero and one), PropsFloat.v ([not_nan], [probabilities_ok]). *)
From Coq Require Import ZArith Reals Lia Lra.
From Flocq Require Import Core BinarySingleNaN.
From Verif Require Import Base PyTree Tensor Num FloatNum FloatSpec Utils States Controller Builder Viewer Editor
  Wf Spec History ElementSpec BuilderSpec ViewerSpec EditorSpec Heap HeapSpec PoolSpec.
From Verif Require Import BaseFacts TensorFacts ControllerFacts IterateFacts ResetFacts HistoryFacts AgreeFacts ExactFacts StepFacts
  BuilderFacts ViewerFacts EditorFacts StateFacts ElementFacts FloatFacts FloatFacts2 FloatFacts3 PoolFacts.
From Verif Require Import PropsController PropsFloat PropsHeap PropsPool.
Close Scope R_scope. Close Scope Z_scope. Open Scope string_scope. Open Scope list_scope. Open Scope nat_scope.

Section Formats.
  Context {prec emax : Z} {Hp : Prec_gt_0 prec} {Hm : Prec_lt_emax prec emax}.
  Notation N := (FloatNum prec emax).
  Notation bf := (binary_float prec emax).

  (** Epsilon, probabilities and residuals are finite numbers between zero and one. *)
  Record float_range (s : state N) : Prop := {
    fr_eps : eps_ok (epsilon s);
    fr_dep : dep_ok prec emax (depression_constant s);
    fr_p : probabilities_ok s;
    fr_r : forall i r, (residuals s).[i] = Some r -> funit (r : bf)
  }.
  (** No NaN is handed over as a halting value, probability, residual or as the epsilon of a builder
      (NaN passes the checks: C21, C33); depression constants are not negative; functions handed to
      [transform] keep numbers between zero and one there. *)
  Definition hcall_numbers (c : hcall N) : Prop :=
    match c with
    | On _ (MIter a) | On _ (MSetProbabilities a) | On _ (MSetResiduals a) => Forall not_nan (a_data a)
    | On _ (MTransform f) => forall a a', f a = Ok a' ->
        Forall (fun x => funit (x : bf)) (a_data a) -> Forall (fun x => funit (x : bf)) (a_data a')
    | On _ _ => True
    | NewBuilder _ _ _ eps dep => is_nan (eps : pyfloat) = false /\ dep_ok prec emax dep
    end.

  Definition all_unit (l : list (val N)) : Prop := Forall (fun x => funit (x : bf)) l.
  Lemma float_range_iff (s : state N) : float_range s <->
    eps_ok (epsilon s) /\ dep_ok prec emax (depression_constant s) /\
    all_unit (a_data (probabilities s)) /\ all_unit (a_data (residuals s)).
  Proof.
    assert (G : forall (P : val N -> Prop) l, Forall P l <-> forall i x, nth_error l i = Some x -> P x).
    { intros P l. rewrite Forall_forall. split; intros H.
      - intros i x Hx. apply H. eapply nth_error_In; eauto.
      - intros x Hx. apply In_nth_error in Hx as [i Hi]. eauto. }
    unfold all_unit. rewrite !G. split.
    - intros [A B C D]. auto.
    - intros (A & B & C & D). constructor; auto.
  Qed.
  Lemma unit_checked (x : bf) : is_nan x = false -> in_unit (N := N) x -> funit x.
  Proof.
    intros Nx [A B]. cbn [v_ltb v_zero v_one FloatNum] in A, B. change (Bltb x f_zero = false) in A. change (Bltb f_one x = false) in B.
    assert (F : is_finite x = true).
    { destruct x as [s|s| |s m e H]; try reflexivity; [|discriminate Nx].
      destruct s; [discriminate A|]. unfold Bltb, SpecFloat.SFltb in B. cbn in B.
      assert (X := one_finite prec emax). unfold f_one in *. destruct (Bone : bf) as [s|s| |s m e H]; try discriminate X; destruct s; cbn in B; discriminate B. }
    split; [exact F|].
    apply ltb_R_false in A; [|exact F|reflexivity]. apply ltb_R_false in B; [|apply one_finite|exact F].
    rewrite one_R in B. cbn in A. lra.
  Qed.
  Lemma eps_checked (x : pyfloat) : Bleb (B754_zero false) x = true -> Bleb x Bone = true -> eps_ok x.
  Proof.
    intros A B. assert (X := one_finite 53 1024). change (f_one : pyfloat) with (Bone : pyfloat) in X.
    assert (F : is_finite x = true).
    { destruct x as [s|s| |s m e H]; try reflexivity; [|discriminate A].
      destruct s; [discriminate A|]. unfold Bleb, SpecFloat.SFleb in B.
      destruct (Bone : pyfloat) as [s|s| |s m e H]; try discriminate X; destruct s; cbn in B; discriminate B. }
    split; [exact F|]. rewrite Bleb_correct in A; [|reflexivity|exact F]. rewrite Bleb_correct in B; [|exact F|exact X].
    assert (O := one_R 53 1024). change (f_one : pyfloat) with (Bone : pyfloat) in O. rewrite O in B.
    destruct (Rle_bool_spec (B2R (B754_zero false : pyfloat)) (B2R x)) as [L1|]; [|discriminate A].
    destruct (Rle_bool_spec (B2R x) 1) as [L2|]; [|discriminate B]. split; [exact L1|exact L2].
  Qed.
  Lemma eps_sane_ok (x : pyfloat) : is_nan x = false -> Bleb Bone x = false -> Bleb x (B754_zero false) = false -> eps_ok x.
  Proof.
    intros Nx A B. assert (X := one_finite 53 1024). change (f_one : pyfloat) with (Bone : pyfloat) in X.
    assert (F : is_finite x = true).
    { destruct x as [s|s| |s m e H]; try reflexivity; [|discriminate Nx].
      destruct s; [discriminate B|]. unfold Bleb, SpecFloat.SFleb in A.
      destruct (Bone : pyfloat) as [s|s| |s m e H]; try discriminate X; destruct s; cbn in A; discriminate A. }
    split; [exact F|]. rewrite Bleb_correct in A; [|exact X|exact F]. rewrite Bleb_correct in B; [|exact F|reflexivity].
    assert (O := one_R 53 1024). change (f_one : pyfloat) with (Bone : pyfloat) in O. rewrite O in A.
    destruct (Rle_bool_spec 1 (B2R x)); [discriminate A|]. destruct (Rle_bool_spec (B2R x) (B2R (B754_zero false : pyfloat))) as [|L]; [discriminate B|].
    cbn in L. lra.
  Qed.

  Context (H2 : (2 <= prec)%Z).
  Lemma float_call (s s' : state N) c : wf s -> wf_pending s -> call_wf c -> no_nan c -> float_range s ->
    apply_call s c = Ok s' -> float_range s'.
  Proof.
    intros W P Wc Nc [E D Rp Rr] H.
    assert (X : run s [c] = s') by (cbn; unfold after; now rewrite H).
    assert (F1 : Forall call_wf [c]) by (repeat constructor; auto).
    assert (F2 : Forall no_nan [c]) by (repeat constructor; auto).
    destruct (run_settings s W P [c] F1) as [E1 E2]. rewrite X in E1, E2.
    constructor.
    - now rewrite E1.
    - now rewrite E2.
    - rewrite <- X. now apply run_unit.
    - rewrite <- X. apply (C07_float_residual prec emax s [c] H2 W P F1 F2 E D Rp Rr).
  Qed.
  Lemma float_mapped (s : state N) (g : array N -> array N) : float_range s ->
    (forall x, In x (tensors s) -> all_unit (a_data x) -> all_unit (a_data (g x))) -> float_range (mapped g s).
  Proof.
    rewrite !float_range_iff. intros (A & B & C & D) H. cbn [mapped epsilon depression_constant probabilities residuals].
    split; [exact A|]. split; [exact B|]. split; [apply H; [cbn; auto|exact C]|apply H; [cbn; auto|exact D]].
  Qed.
  Lemma float_mask (s s' : state N) d m : wf s -> twf m -> float_range s -> mask_data s d m = Ok s' -> float_range s'.
  Proof.
    intros W Wm R H. destruct (mask_inv s s' d m W Wm H) as [Hs ->]. apply float_mapped; [exact R|].
    intros x _ Hx. unfold mask_fun. cbn [a_data a_ten data].
    generalize (expand (size (skipn (length (batch_shape s)) (a_shape x))) (data m)). intros bs.
    revert bs. induction Hx as [|v l Hv _ IH]; intros [|b bs]; cbn [map2]; try (apply Forall_nil).
    apply Forall_cons; [|apply IH].
    destruct b; cbn [v_of_bool v_mul v_one v_zero FloatNum].
    - change (funit (f_mul f_one (v : bf))). rewrite mul_one_l. exact Hv.
    - change (funit (f_mul f_zero (v : bf))). destruct (mul_zero_l prec emax v (proj1 Hv)) as [sg ->]. split; [reflexivity|]. cbn. lra.
  Qed.
  Lemma float_edit (e e' : editor N) c :
    ed_mode e = m_standard -> float_range (ed_state e) ->
    match c with EProbabilities a | EResiduals a => Forall not_nan (a_data a) | _ => True end ->
    apply_edit e c = Ok e' -> float_range (ed_state e').
  Proof.
    intros M R Nc H. rewrite float_range_iff in R |- *. destruct R as (A & B & C & D).
    assert (U : forall a : array N, Forall not_nan (a_data a) -> Forall in_unit (a_data a) -> all_unit (a_data a)).
    { intros a H1 H3. unfold all_unit. rewrite Forall_forall in *. intros x Hx. apply unit_checked; auto. exact (H1 x Hx). }
    assert (G : forall bs u, execute_checks e (Ok bs) = Ok u -> forallb (fun b => b) bs = true).
    { intros bs u Hb. destruct (checks_standard e bs M) as [_ X]. destruct (forallb (fun b => b) bs); [reflexivity|].
      rewrite X in Hb by discriminate. discriminate Hb. }
    destruct c as [v|v|v|x|name v|name v|name v]; cbn [apply_edit] in H.
    - unfold set_probabilities in H. apply bind_ok in H as (u & Hb & H). apply G in Hb. cbn in H. injection H as <-.
      cbn [ed_state epsilon depression_constant probabilities residuals].
      split; [exact A|]. split; [exact B|]. split; [|exact D]. apply U; [exact Nc|]. apply probability_checks.
      cbn [forallb] in Hb |- *. apply andb_true_iff in Hb as [_ Hb]. apply andb_true_iff in Hb as [_ Hb]. exact Hb.
    - unfold set_residuals in H. apply bind_ok in H as (u & Hb & H). apply G in Hb. cbn in H. injection H as <-.
      cbn [ed_state epsilon depression_constant probabilities residuals].
      split; [exact A|]. split; [exact B|]. split; [exact C|]. apply U; [exact Nc|]. apply probability_checks.
      cbn [forallb] in Hb |- *. apply andb_true_iff in Hb as [_ Hb]. apply andb_true_iff in Hb as [_ Hb]. exact Hb.
    - unfold set_iterations in H. apply bind_ok in H as (u & Hb & H). cbn in H. injection H as <-. exact (conj A (conj B (conj C D))).
    - unfold set_epsilon in H. apply bind_ok in H as (u & Hb & H). apply G in Hb. cbn [replace bind] in H. injection H as <-.
      cbn [ed_state epsilon depression_constant probabilities residuals default].
      split; [|exact (conj B (conj C D))]. cbn [forallb s_leb s_zero s_one FloatNum] in Hb.
      apply andb_true_iff in Hb as [Hb1 Hb2]. apply andb_true_iff in Hb2 as [Hb2 _]. exact (eps_checked x Hb1 Hb2).
    - unfold set_accumulator in H. apply bind_ok in H as (u & Hb & H). cbn in H. injection H as <-. exact (conj A (conj B (conj C D))).
    - unfold set_defaults in H. apply bind_ok in H as (u & Hb & H). cbn in H. injection H as <-. exact (conj A (conj B (conj C D))).
    - unfold set_updates in H. apply bind_ok in H as (u & Hb & H). cbn in H. injection H as <-. exact (conj A (conj B (conj C D))).
  Qed.

  Lemma float_pure_call planned m (v v' : pyval N) :
    consistent planned v -> float_range (inside v) -> method_ok planned m -> hcall_numbers (On 0 m) -> pure_call m v = Ok v' ->
    float_range (inside v').
  Proof.
    intros C R M Q H. assert (F := consistent_fine planned v C). destruct C as (_ & _ & _ & X). destruct F as (W & P & _).
    destruct m, v as [s|s|s|e|s]; cbn [pure_call inside] in *; try discriminate H.
    all: try (injection H as <-; exact R).
    all: try match type of H with fmap _ ?r = Ok _ => destruct r as [x'|] eqn:E; cbn [fmap] in H; [|discriminate H]; injection H as <- end; cbn [inside].
    - exact (float_call s x' (CCache name item) W P M I R E).
    - exact (float_call s x' (CIter p) W P M Q R E).
    - exact (float_call s x' CReset W P I I R E).
    - destruct (transform_mapped s x' f E) as (g & G & ->). apply float_mapped; [exact R|]. intros x Hx. exact (Q x (g x) (G x Hx)).
    - exact (float_mask s x' d m W M R E).
    - apply (float_mask s x' DBool (tnot (halted_batches s)) W); [apply twf_map; now apply halted_twf|exact R|exact E].
    - apply (float_mask s x' DBool (halted_batches s) W); [now apply halted_twf|exact R|exact E].
    - apply define_ok_iff in E as [_ ->]. destruct R. constructor; assumption.
    - apply define_by_shape_ok_iff in E as (t & _ & E). apply define_ok_iff in E as [_ ->]. destruct R. constructor; assumption.
    - apply delete_ok_iff in E as (_ & _ & _ & ->). destruct R. constructor; assumption.
    - exact (float_edit e x' (EProbabilities a) X R Q E).
    - exact (float_edit e x' (EResiduals a) X R Q E).
    - exact (float_edit e x' (EIterations a) X R I E).
    - exact (float_edit e x' (EEpsilon x) X R I E).
    - exact (float_edit e x' (EAccumulator name t) X R I E).
    - exact (float_edit e x' (EDefaults name t) X R I E).
    - exact (float_edit e x' (EUpdates name t) X R I E).
    - apply mode_standard in E; [|exact M]. subst x'. exact R.
    - apply (mode_standard mode s x') in E; [|exact M]. subst x'. exact R.
    - unfold unflatten_controller, flatten_controller, save, load in E. rewrite flatten_round_trip in E. cbn [bind] in E. injection E as <-. destruct R. constructor; assumption.
    - unfold unflatten_builder, flatten_builder in E. rewrite flatten_round_trip in E. injection E as <-. destruct R. constructor; assumption.
    - unfold unflatten_viewer, flatten_viewer in E. rewrite flatten_round_trip in E. injection E as <-. destruct R. constructor; assumption.
    - unfold unflatten_editor, flatten_editor in E. rewrite (surjective_pairing (tree_flatten_state (ed_state e))) in E. cbn [fst snd] in E.
      rewrite flatten_round_trip in E. cbn [bind] in E. injection E as <-. destruct R. constructor; assumption.
  Qed.
  Lemma float_new em b d (eps dep : pyfloat) (s : state N) : is_nan eps = false -> dep_ok prec emax dep ->
    new_builder_with (N := N) em b d eps dep = Ok s -> float_range s.
  Proof.
    intros Ne D H. destruct em as [m|]; [|exfalso; exact (new_builder_never (N := N) b d eps dep s H)].
    apply new_builder_with_ok in H as (_ & [E1 E2] & _ & ->). apply float_range_iff. unfold empty_state.
    cbn [epsilon depression_constant probabilities residuals].
    assert (Z : forall sh, all_unit (a_data (a_full (N := N) sh (v_zero N) (core d)))).
    { intros sh. apply Forall_forall. intros x Hx. apply repeat_spec in Hx. subst x. exact (zero_unit prec emax). }
    split; [exact (eps_sane_ok eps Ne E1 E2)|]. split; [exact D|]. split; apply Z.
  Qed.
  Lemma float_run planned (vs : list (pyval N)) cs es vs' :
    Forall (fun v => consistent planned v /\ float_range (inside v)) vs -> Forall (hcall_ok planned) cs -> Forall hcall_numbers cs ->
    pure_run vs cs = (es, vs') -> Forall (fun v => consistent planned v /\ float_range (inside v)) vs'.
  Proof.
    revert vs es. induction cs as [|c cs IH]; intros vs es C O Q H; cbn [pure_run] in H; [congruence|].
    apply Forall_cons_iff in O as [Oc Ocs]. apply Forall_cons_iff in Q as [Qc0 Qcs].
    destruct (pure_run match pure_do vs c with Ok v => vs ++ [v] | Err _ => vs end cs) as [es1 vs1] eqn:E. injection H as _ <-.
    eapply IH; [|exact Ocs|exact Qcs|exact E]. destruct (pure_do vs c) as [v|] eqn:Ed; [|exact C].
    apply Forall_app. split; [exact C|]. constructor; [|constructor].
    destruct c as [i m|em b d eps dep]; cbn [pure_do hcall_ok] in *.
    - destruct (nth_error vs i) as [v0|] eqn:En; [|discriminate]. rewrite Forall_forall in C.
      destruct (C v0 (nth_error_In _ _ En)) as [C0 R0]. split; [exact (call_consistent planned m v0 v C0 Oc Ed)|].
      exact (float_pure_call planned m v0 v C0 R0 Oc Qc0 Ed).
    - destruct (new_builder_with em b d eps dep) as [s|] eqn:En; [|discriminate]. injection Ed as <-.
      split; [exact (new_consistent _ _ _ _ _ _ _ En)|]. exact (float_new _ _ _ _ _ _ (proj1 Qc0) (proj2 Qc0) En).
  Qed.
End Formats.

(** A user starts with nothing: every epsilon, probability and residual in anything they ever hold is
    a finite number between zero and one, in every format with at least two bits. *)
Theorem C90_float_everything_is_in_range (prec emax : Z) {Hp : Prec_gt_0 prec} {Hm : Prec_lt_emax prec emax}
  planned (cs : list (hcall (FloatNum prec emax))) es p h :
  (2 <= prec)%Z -> Forall (hcall_ok planned) cs -> Forall hcall_numbers cs -> heap_run [] [] cs = (es, p, h) ->
  Forall (fun l => exists v, view h l = Some v /\ consistent planned v /\ float_range (inside v)) p.
Proof.
  intros H2 O Q H. destruct (pure_run [] cs) as [es' vs'] eqn:E.
  destruct (C41_sharing_is_invisible [] [] [] cs es p h es' vs' (Forall2_nil _) H E) as [_ F].
  assert (C := float_run H2 planned [] cs es' vs' (Forall_nil _) O Q E).
  clear - F C. induction F as [|l v p vs Hv _ IH]; constructor; apply Forall_cons_iff in C as [C1 C2]; eauto.
Qed.
Print Assumptions C90_float_everything_is_in_range.
(** binary32: an infinite and a negative halting value, refused and accepted settings, a reset *)
Definition inf32 : val N32 := B754_infinity false.
Definition hist90f : list (hcall N32) :=
  [ NewBuilder (N := N32) (Some None) (BInt 2) None (py_div 1 10) (py_div 1 1);
    NewBuilder (N := N32) (Some None) (BInt 2) None (py_div 3 1) (py_div 1 1);
    On (N := N32) 0 (MDefine (N := N32) "x" (Leaf (arr32 [2] [f32 0 1; f32 0 1])));
    On (N := N32) 1 (MBuild (N := N32)); On (N := N32) 2 (MCache (N := N32) "x" (Leaf (arr32 [2] [f32 1 3; inf32])));
    On (N := N32) 3 (MIter (N := N32) (arr32 [2] [inf32; f32 1 3])); On (N := N32) 4 (MEditController (N := N32) "standard");
    On (N := N32) 5 (MSetProbabilities (N := N32) (arr32 [2] [f32 1 10; inf32]));
    On (N := N32) 5 (MSetProbabilities (N := N32) (arr32 [2] [f32 1 10; f32 7 10]));
    On (N := N32) 6 (MSetEpsilon (N := N32) (py_div 1 4)); On (N := N32) 7 (MBuild (N := N32));
    On (N := N32) 8 (MCache (N := N32) "x" (Leaf (arr32 [2] [f32 1 1; f32 2 1])));
    On (N := N32) 9 (MIter (N := N32) (arr32 [2] [f32 (-5) 1; f32 1 3])); On (N := N32) 10 (MMakeViewer (N := N32)) ].
Example C90_float_case :
  Forall (hcall_ok (fun _ t => t = Leaf tt)) hist90f /\ Forall hcall_numbers hist90f /\
  fst (fst (heap_run [] [] hist90f)) =
    [None; Some ValueError; None; None; None; None; None; Some JaxRuntimeError; None; None; None; None; None; None] /\
  length (snd (fst (heap_run [] [] hist90f))) = 12.
Proof.
  split; [|split; [|split; vm_compute; reflexivity]].
  - repeat (apply Forall_cons; [cbn [hcall_ok method_ok]; try exact I; try discriminate; try reflexivity; try (repeat constructor; fail)|]).
    apply Forall_nil.
  - assert (D : dep_ok 24 128 (py_div 1 1)).
    { split; [vm_compute; reflexivity|apply (leb_real (f_zero (prec := 24) (emax := 128))); vm_compute; reflexivity]. }
    repeat (apply Forall_cons; [cbn [hcall_numbers]; try exact I; try (split; [reflexivity|exact D]); repeat constructor; vm_compute; reflexivity|]).
    apply Forall_nil.
Qed.
