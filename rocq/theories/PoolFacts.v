(** * Everything a user can get hold of is consistent *)
From Coq Require Import QArith Qcanon.
From Verif Require Import Base PyTree Tensor Num Utils States Controller Builder Viewer Editor Wf History
  UtilsSpec ViewerSpec EditorSpec BuilderSpec HeapSpec PoolSpec StateSpec.
From Verif Require Import BaseFacts PyTreeFacts TensorFacts UtilsFacts ControllerFacts StepFacts ResetFacts HistoryFacts
  QcFacts BuilderFacts ViewerFacts EditorFacts StateFacts.
Close Scope Qc_scope. Close Scope Q_scope. Open Scope nat_scope.

Section PoolFacts.
  Context {N : numsys}.
  Notation st := (state N).
  Notation tr := (tree (array N)).

  Lemma no_none_def {A} (t : tree A) : no_none (structure t) = no_none t.
  Proof.
    induction t as [x|n cs IH] using tree_ind'; [reflexivity|]. cbn [structure tmap no_none].
    destruct n; auto; clear - IH; induction IH as [|c cs H _ IH]; cbn [map forallb]; auto; unfold structure in *; congruence.
  Qed.
  Lemma no_none_like {A B} (t1 : tree A) (t2 : tree B) : structure t1 = structure t2 -> no_none t1 = no_none t2.
  Proof. intros H. rewrite <- (no_none_def t1), <- (no_none_def t2). now rewrite H. Qed.

  Context (planned : plan).
  (** The common part of [consistent]. *)
  Definition fine (s : st) : Prop :=
    wf s /\ wf_pending s /\ forall k t, dget k (accumulators s) = Some t -> planned k (structure t).

  Lemma fresh_pending (s : st) : fresh s -> wf_pending s.
  Proof. intros (_ & _ & _ & _ & H) k u Hu. rewrite (H k u Hu). constructor. Qed.

  Lemma fine_call (s s' : st) c : fine s -> call_wf c -> apply_call s c = Ok s' -> fine s'.
  Proof.
    intros (W & P & Q) Wc H. destruct (apply_call_wf s s' c W P Wc H) as [W' P'].
    assert (F := after_frame s c W P Wc). unfold after in F. rewrite H in F.
    split; [exact W'|]. split; [exact P'|]. intros k t Ht.
    assert (I : In k (dkeys (accumulators s))). { rewrite <- (sf_accs _ _ F). apply dget_keys. eauto. }
    apply dget_keys in I as [t0 Ht0]. rewrite (proj1 (sf_acc _ _ F k t0 t Ht0 Ht)). exact (Q k t0 Ht0).
  Qed.

  Lemma fine_edit (e e' : editor N) c :
    fine (ed_state e) -> ed_mode e = m_standard -> edit_wf c ->
    (forall name v, c = EAccumulator name v \/ c = EDefaults name v -> forall t : tr, planned name (structure t) -> none_safe t v) ->
    apply_edit e c = Ok e' -> fine (ed_state e') /\ ed_mode e' = m_standard.
  Proof.
    intros (W & P & Q) M Wc Nc H.
    assert (Sc : edit_none_safe (ed_state e) c).
    { destruct c; cbn; auto; intros t Ht; eapply Nc; eauto. }
    destruct (edit_kind e c e' W P M Wc Sc H) as (W' & P' & K).
    split; [|rewrite (edit_mode _ _ _ H); exact M]. split; [exact W'|]. split; [exact P'|].
    intros k t Ht. assert (I : In k (dkeys (accumulators (ed_state e)))). { rewrite <- (sk_keys _ _ K). apply dget_keys. eauto. }
    apply dget_keys in I as [t0 Ht0]. rewrite (proj1 (sk_acc _ _ K k t0 t Ht0 Ht)). exact (Q k t0 Ht0).
  Qed.

  Lemma transform_mapped (s s' : st) f : transform s f = Ok s' ->
    exists g, (forall x, In x (tensors s) -> f x = Ok (g x)) /\ s' = mapped g s.
  Proof.
    intros H. destruct (transform_inv s s' f H) as (T & _).
    exists (fun x => match f x with Ok y => y | Err _ => x end).
    assert (G : forall x, In x (tensors s) -> f x = Ok (match f x with Ok y => y | Err _ => x end)).
    { intros x Hx. destruct (T x Hx) as [y ->]. reflexivity. }
    split; [exact G|]. rewrite (transform_pure s f _ G) in H. congruence.
  Qed.
  Lemma fine_mapped (s : st) g :
    fine s -> (forall x, In x (tensors s) -> sig (g x) = sig x /\ awf (g x)) -> fine (mapped g s).
  Proof.
    intros (W & P & Q) H. split; [now apply mapped_wf|]. split.
    - intros k u. cbn [mapped updates]. rewrite dget_dmap. destruct (dget k (defaults s)) as [d|] eqn:E; [|discriminate].
      cbn. intros X. injection X as <-. rewrite leaves_tmap. apply Forall_forall. intros y Hy.
      apply in_map_iff in Hy as (x & <- & Hx). apply H. do 3 right. apply in_or_app. right.
      eapply in_dict_tensors; [|exact Hx]. apply dget_In. exact E.
    - intros k t. cbn [mapped accumulators]. rewrite dget_dmap. destruct (dget k (accumulators s)) as [a|] eqn:E; [|discriminate].
      cbn. intros X. injection X as <-. rewrite structure_tmap. exact (Q k a E).
  Qed.
  Lemma fine_transform (s s' : st) f : fine s -> keeps_kind f -> transform s f = Ok s' -> fine s'.
  Proof.
    intros F K H. destruct (transform_mapped s s' f H) as (g & G & ->). apply fine_mapped; [exact F|].
    intros x Hx. destruct (wf_tensor s x (proj1 F) Hx) as [A _]. destruct (K x (g x) (G x Hx) A) as [B C]. auto.
  Qed.
  Lemma fine_masked (s : st) m : wf s -> twf m -> shape m = batch_shape s ->
    forall x, In x (tensors s) -> sig (mask_fun (batch_shape s) (data m) x) = sig x /\ awf (mask_fun (batch_shape s) (data m) x).
  Proof.
    intros W Wm Hs x Hx. destruct (wf_tensor s x W Hx) as [A [R HR]]. split; [apply mask_fun_sig|].
    apply (mask_fun_awf _ _ _ R); auto. rewrite <- Hs. exact Wm.
  Qed.
  Lemma mask_inv (s s' : st) d m : wf s -> twf m -> mask_data s d m = Ok s' ->
    shape m = batch_shape s /\ s' = mapped (mask_fun (batch_shape s) (data m)) s.
  Proof.
    intros W Wm H.
    assert (Hd : d = DBool /\ shape m = batch_shape s).
    { unfold mask_data in H. apply bind_ok in H as ([] & G1 & H). apply bind_ok in H as ([] & G2 & _).
      unfold guard in G1, G2. destruct (dtype_eqb d DBool) eqn:E1; [|discriminate]. destruct (shape_eqb (shape m) (a_shape (probabilities s))) eqn:E2; [|discriminate].
      split; [now apply dtype_eqb_iff|now apply shape_eqb_iff]. }
    destruct Hd as [-> Hs]. split; [exact Hs|]. rewrite (mask_ok s m W Wm Hs) in H. congruence.
  Qed.
  Lemma fine_mask (s s' : st) d m : fine s -> twf m -> mask_data s d m = Ok s' -> fine s'.
  Proof.
    intros F Wm H. destruct (mask_inv s s' d m (proj1 F) Wm H) as [Hs ->].
    apply fine_mapped; [exact F|]. apply fine_masked; auto. apply F.
  Qed.
  Lemma halted_twf (s : st) : wf s -> twf (halted_batches s) /\ shape (halted_batches s) = batch_shape s.
  Proof. intros W. split; [unfold twf; rewrite (halted_length s W), halted_shape; reflexivity|apply halted_shape]. Qed.

  Lemma fine_canonical (s : st) : fine s -> fine (canonical s).
  Proof.
    intros (W & P & Q). assert (S := canonical_same s (wf_proper s W)).
    split; [exact (wf_same _ _ (canonical_proper s (wf_proper s W)) S W)|]. split; [exact (wf_pending_same _ _ S P)|].
    intros k t Ht. rewrite <- (ss_acc _ _ S) in Ht. eauto.
  Qed.
  Lemma fresh_same (s s' : st) : same_state s s' -> fresh s -> fresh s'.
  Proof.
    intros S (A & B & C & D & E). unfold fresh. rewrite <- (ss_p _ _ S), <- (ss_r _ _ S), <- (ss_i _ _ S).
    split; [exact A|]. split; [exact B|]. split; [exact C|]. split.
    - intros k. rewrite <- (ss_acc _ _ S), <- (ss_def _ _ S). apply D.
    - intros k u. rewrite <- (ss_upd _ _ S). apply E.
  Qed.

  Lemma describes_no_none d fill shapes (t : tr) : describes d fill shapes t -> no_none shapes = true -> no_none t = true.
  Proof.
    revert t. induction shapes as [x|n cs IH] using tree_ind'; intros t H.
    - inversion H.
    - inversion H as [zs Hz E1 E2|n' cs' ts Hn Hf E1 E2]; subst; [reflexivity|].
      cbn [no_none]. destruct n; auto; clear - IH Hf; revert ts Hf; induction IH as [|c cs Hc _ IH]; intros ts Hf; inversion Hf as [|? t ? ts' H1 H2]; subst; cbn [forallb]; auto;
        intros X; apply andb_true_iff in X as [X1 X2]; apply andb_true_iff; auto.
  Qed.

  Definition build_step (s s' : st) : Prop :=
    (exists name t, Forall awf (leaves t) /\ planned name (structure t) /\ definition_ok s t /\ s' = defined s name t) \/
    (exists name, s' = removed s name).
  Lemma fine_built (s s' : st) : fine s -> fresh s -> build_step s s' -> fine s' /\ fresh s'.
  Proof.
    intros (W & P & Q) F [(name & t & Ha & Hn & Hd & ->)|(name & ->)].
    - destruct (defined_wf s name t W F Ha Hd) as [W' F']. split; [|exact F'].
      split; [exact W'|]. split; [now apply fresh_pending|]. intros k u. cbn [defined accumulators]. rewrite dget_dset.
      destruct (String.eqb_spec k name) as [->|_]; [|apply Q]. intros X. injection X as <-. exact Hn.
    - destruct (removed_wf s name W F) as [W' F']. split; [|exact F'].
      split; [exact W'|]. split; [now apply fresh_pending|]. intros k u. cbn [removed accumulators].
      rewrite dget_ddel by apply W. destruct (String.eqb k name); [discriminate|apply Q].
  Qed.

  Lemma mode_standard mode (s : st) e : mode <> m_silence -> edit_controller s mode = Ok e -> e = mkEd s m_standard.
  Proof.
    intros M. unfold edit_controller, error_modes. cbn [existsb].
    destruct (String.eqb_spec mode m_standard) as [->|_]; cbn [orb guard bind]; [congruence|].
    destruct (String.eqb_spec mode m_silence) as [X|_]; [contradiction|]. discriminate.
  Qed.

  Ltac fm H x E := match type of H with fmap _ ?r = Ok _ => destruct r as [x|] eqn:E; cbn [fmap] in H; [|discriminate H]; injection H as <- end.
  Lemma consistent_fine (v : pyval N) : consistent planned v -> fine (inside v).
  Proof. intros (A & B & C & _). split; auto. Qed.
  Lemma make_consistent (v : pyval N) : fine (inside v) ->
    match v with PBuilder s => fresh s | PEditor e => ed_mode e = m_standard | _ => True end -> consistent planned v.
  Proof. intros (A & B & C) D. split; auto. Qed.

  Theorem call_consistent m (v v' : pyval N) :
    consistent planned v -> method_ok planned m -> pure_call m v = Ok v' -> consistent planned v'.
  Proof.
    intros C M H. assert (F := consistent_fine v C). destruct C as (_ & _ & _ & X).
    destruct m, v as [s|s|s|e|s]; cbn [pure_call inside] in *; try discriminate H.
    all: try (injection H as <-; apply make_consistent; [exact F|exact I]; fail).
    - (* cache *) fm H x E. apply make_consistent; [|exact I]. exact (fine_call s x (CCache name item) F M E).
    - fm H x E. apply make_consistent; [|exact I]. exact (fine_call s x (CIter p) F M E).
    - fm H x E. apply make_consistent; [|exact I]. exact (fine_call s x CReset F I E).
    - fm H x E. apply make_consistent; [|exact I]. exact (fine_transform s x f F M E).
    - fm H x E. apply make_consistent; [|exact I]. exact (fine_mask s x d m F M E).
    - fm H x E. apply make_consistent; [|exact I]. apply (fine_mask s x DBool (tnot (halted_batches s)) F); [apply twf_map; now apply halted_twf, F|exact E].
    - fm H x E. apply make_consistent; [|exact I]. apply (fine_mask s x DBool (halted_batches s) F); [now apply halted_twf, F|exact E].
    - (* define *) fm H x E. apply define_ok_iff in E as [Hd ->]. destruct (fine_built s (defined s name t) F X) as [A B].
      { left. exists name, t. destruct M. auto. } apply make_consistent; [exact A|exact B].
    - fm H x E. apply define_by_shape_ok_iff in E as (t & Ht & E). apply define_ok_iff in E as [Hd ->].
      destruct (fine_built s (defined s name t) F X) as [A B].
      { left. exists name, t. split; [apply describes_awf in Ht as Ht'; eapply Forall_impl; [|exact Ht']; cbn; tauto|].
        split; [exact (M t Ht)|auto]. } apply make_consistent; [exact A|exact B].
    - fm H x E. apply delete_ok_iff in E as (_ & _ & _ & ->). destruct (fine_built s (removed s name) F X) as [A B]; [right; eauto|].
      apply make_consistent; [exact A|exact B].
    - fm H x E. destruct (fine_edit e x (EProbabilities a) F X M ltac:(intros ? ? [Y|Y]; discriminate Y) E) as [A B]. now apply make_consistent.
    - fm H x E. destruct (fine_edit e x (EResiduals a) F X M ltac:(intros ? ? [Y|Y]; discriminate Y) E) as [A B]. now apply make_consistent.
    - fm H x E. destruct (fine_edit e x (EIterations a) F X M ltac:(intros ? ? [Y|Y]; discriminate Y) E) as [A B]. now apply make_consistent.
    - fm H y E. destruct (fine_edit e y (EEpsilon x) F X I ltac:(intros ? ? [Y|Y]; discriminate Y) E) as [A B]. now apply make_consistent.
    - fm H x E. destruct (fine_edit e x (EAccumulator name t) F X (proj1 M) ltac:(intros ? ? [Y|Y]; [injection Y as <- <-; exact (proj2 M)|discriminate Y]) E) as [A B]. now apply make_consistent.
    - fm H x E. destruct (fine_edit e x (EDefaults name t) F X (proj1 M) ltac:(intros ? ? [Y|Y]; [discriminate Y|injection Y as <- <-; exact (proj2 M)]) E) as [A B]. now apply make_consistent.
    - fm H x E. destruct (fine_edit e x (EUpdates name t) F X M ltac:(intros ? ? [Y|Y]; discriminate Y) E) as [A B]. now apply make_consistent.
    - fm H x E. apply mode_standard in E; [|exact M]. subst x. now apply make_consistent.
    - fm H x E. apply (mode_standard mode s x) in E; [|exact M]. subst x. now apply make_consistent.
    - unfold unflatten_controller, flatten_controller, save, load in H. rewrite flatten_round_trip in H. cbn [bind fmap] in H. injection H as <-.
      apply make_consistent; [now apply fine_canonical|exact I].
    - unfold unflatten_builder, flatten_builder in H. rewrite flatten_round_trip in H. cbn [bind fmap] in H. injection H as <-.
      apply make_consistent; [now apply fine_canonical|]. cbn. apply (fresh_same s); [|exact X]. apply canonical_same, wf_proper, F.
    - unfold unflatten_viewer, flatten_viewer in H. rewrite flatten_round_trip in H. cbn [bind fmap] in H. injection H as <-.
      apply make_consistent; [now apply fine_canonical|exact I].
    - unfold unflatten_editor, flatten_editor in H. rewrite (surjective_pairing (tree_flatten_state (ed_state e))) in H. cbn [fst snd] in H.
      rewrite flatten_round_trip in H. cbn [bind fmap] in H. injection H as <-.
      apply make_consistent; [now apply fine_canonical|exact X].
  Qed.
  Lemma new_consistent em b d eps dep (s : st) : new_builder_with em b d eps dep = Ok s -> consistent planned (PBuilder s).
  Proof.
    intros H. destruct em as [m|].
    - destruct (new_builder_wf m b d eps dep s H) as [W F]. apply make_consistent; [|exact F].
      split; [exact W|]. split; [now apply fresh_pending|]. apply new_builder_with_ok in H as (_ & _ & _ & ->).
      intros k t. cbn. discriminate.
    - exfalso. exact (new_builder_never b d eps dep s H).
  Qed.
  Lemma do_consistent (vs : list (pyval N)) c v :
    Forall (consistent planned) vs -> hcall_ok planned c -> pure_do vs c = Ok v -> consistent planned v.
  Proof.
    intros C O H. destruct c as [i m|em b d eps dep]; cbn [pure_do hcall_ok] in *.
    - destruct (nth_error vs i) as [v0|] eqn:E; [|discriminate]. rewrite Forall_forall in C.
      exact (call_consistent m v0 v (C v0 (nth_error_In _ _ E)) O H).
    - destruct (new_builder_with em b d eps dep) as [s|] eqn:E; [|discriminate]. injection H as <-. exact (new_consistent _ _ _ _ _ _ E).
  Qed.
  Theorem run_consistent (vs : list (pyval N)) cs es vs' :
    Forall (consistent planned) vs -> Forall (hcall_ok planned) cs -> pure_run vs cs = (es, vs') -> Forall (consistent planned) vs'.
  Proof.
    revert vs es. induction cs as [|c cs IH]; intros vs es C O H; cbn [pure_run] in H; [congruence|].
    apply Forall_cons_iff in O as [Oc Ocs].
    destruct (pure_run match pure_do vs c with Ok v => vs ++ [v] | Err _ => vs end cs) as [es1 vs1] eqn:E. injection H as _ <-.
    eapply IH; [|exact Ocs|exact E]. destruct (pure_do vs c) as [v|] eqn:Ed; [|exact C].
    apply Forall_app. split; [exact C|]. constructor; [|constructor]. eapply do_consistent; eauto.
  Qed.

  Theorem call_cannot_fail m (v : pyval N) : consistent planned v -> cannot_fail m v -> exists v', pure_call m v = Ok v'.
  Proof.
    intros C M. assert (F := consistent_fine v C).
    destruct m, v as [s|s|s|e|s]; cbn [cannot_fail] in M; try contradiction; cbn [pure_call inside] in *; eauto.
    - assert (W := proj1 F). destruct (halted_twf s W) as [A B]. unfold unhalted_only.
      rewrite (mask_ok s (tnot (halted_batches s)) W); [cbn; eauto|apply twf_map; exact A|exact B].
    - assert (W := proj1 F). destruct (halted_twf s W) as [A B]. unfold halted_only.
      rewrite (mask_ok s (halted_batches s) W A B). cbn. eauto.
    - subst mode. cbn. eauto.
    - subst mode. cbn. eauto.
    - unfold unflatten_controller, flatten_controller, save, load. rewrite flatten_round_trip. cbn. eauto.
    - unfold unflatten_builder, flatten_builder. rewrite flatten_round_trip. cbn. eauto.
    - unfold unflatten_viewer, flatten_viewer. rewrite flatten_round_trip. cbn. eauto.
    - unfold unflatten_editor, flatten_editor. rewrite (surjective_pairing (tree_flatten_state (ed_state e))). cbn [fst snd].
      rewrite flatten_round_trip. cbn. eauto.
  Qed.
End PoolFacts.

(** ** Exact arithmetic: the statistics stay in range *)
Definition unit_data (l : list Qc) : Prop := Forall (fun x => 0 <= x /\ x <= 1)%Qc l.
Lemma in_range_iff (s : state QcNum) : in_range s <->
  (0 <= epsilon s /\ epsilon s <= 1)%Qc /\ (0 <= depression_constant s)%Qc /\
  unit_data (a_data (probabilities s)) /\ unit_data (a_data (residuals s)) /\ Forall (fun x => 0 <= x)%Qc (a_data (iterations s)).
Proof.
  assert (G : forall (P : Qc -> Prop) l, Forall P l <-> forall i x, nth_error l i = Some x -> P x).
  { intros P l. rewrite Forall_forall. split; intros H.
    - intros i x Hx. apply H. eapply nth_error_In; eauto.
    - intros x Hx. apply In_nth_error in Hx as [i Hi]. eauto. }
  unfold unit_data. rewrite !G. split.
  - intros [A B C D E]. auto.
  - intros (A & B & C & D & E). constructor; auto.
Qed.
Lemma range_mapped (s : state QcNum) (g : array QcNum -> array QcNum) :
  in_range s ->
  (forall x, In x (tensors s) -> (unit_data (a_data x) -> unit_data (a_data (g x))) /\
     (Forall (fun x => 0 <= x)%Qc (a_data x) -> Forall (fun x => 0 <= x)%Qc (a_data (g x)))) ->
  in_range (mapped g s).
Proof.
  rewrite !in_range_iff. intros (A & B & C & D & E) H. cbn [mapped epsilon depression_constant probabilities residuals iterations].
  split; [exact A|]. split; [exact B|].
  split; [apply (H (probabilities s)); [cbn; auto|exact C]|].
  split; [apply (H (residuals s)); [cbn; auto|exact D]|].
  apply (H (iterations s)); [cbn; auto|exact E].
Qed.
Lemma range_mask (s s' : state QcNum) d m : wf s -> twf m -> in_range s -> mask_data s d m = Ok s' -> in_range s'.
Proof.
  intros W Wm R H. destruct (mask_inv s s' d m W Wm H) as [Hs ->]. apply range_mapped; [exact R|].
  intros x Hx. unfold mask_fun. cbn [a_data a_ten data].
  assert (G : forall (P : Qc -> Prop), P 0%Qc -> forall bs l, Forall P l -> Forall P (map2 (fun b v => v_mul QcNum (v_of_bool b) v) bs l)).
  { clear. intros P P0 bs l H. revert bs. induction H as [|v l Hv _ IH]; intros [|b bs]; cbn [map2]; constructor; auto.
    destruct b; cbn; [now rewrite Qcmult_1_l|now rewrite Qcmult_0_l]. }
  split; apply G; try (split; discriminate); discriminate.
Qed.

Theorem call_in_range planned m (v v' : pyval QcNum) :
  consistent planned v -> in_range (inside v) -> method_ok planned m -> hcall_ranged (On 0 m) -> pure_call m v = Ok v' -> in_range (inside v').
Proof.
  intros C R M Q H. assert (F := consistent_fine planned v C). destruct C as (_ & _ & _ & X). destruct F as (W & P & _).
  destruct m, v as [s|s|s|e|s]; cbn [pure_call inside] in *; try discriminate H.
  all: try (injection H as <-; exact R).
  all: try match type of H with fmap _ ?r = Ok _ => destruct r as [x'|] eqn:E; cbn [fmap] in H; [|discriminate H]; injection H as <- end; cbn [inside].
  - exact (call_range s x' (CCache name item) W P M R E).
  - exact (call_range s x' (CIter p) W P M R E).
  - exact (call_range s x' CReset W P I R E).
  - destruct (transform_mapped s x' f E) as (g & G & ->). apply range_mapped; [exact R|]. intros x Hx. exact (Q x (g x) (G x Hx)).
  - exact (range_mask s x' d m W M R E).
  - apply (range_mask s x' DBool (tnot (halted_batches s)) W); [apply twf_map; now apply halted_twf|exact R|exact E].
  - apply (range_mask s x' DBool (halted_batches s) W); [now apply halted_twf|exact R|exact E].
  - apply define_ok_iff in E as [_ ->]. destruct R. constructor; assumption.
  - apply define_by_shape_ok_iff in E as (t & _ & E). apply define_ok_iff in E as [_ ->]. destruct R. constructor; assumption.
  - apply delete_ok_iff in E as (_ & _ & _ & ->). destruct R. constructor; assumption.
  - exact (edit_range e x' (EProbabilities a) X R E).
  - exact (edit_range e x' (EResiduals a) X R E).
  - exact (edit_range e x' (EIterations a) X R E).
  - exact (edit_range e x' (EEpsilon x) X R E).
  - exact (edit_range e x' (EAccumulator name t) X R E).
  - exact (edit_range e x' (EDefaults name t) X R E).
  - exact (edit_range e x' (EUpdates name t) X R E).
  - apply mode_standard in E; [|exact M]. subst x'. exact R.
  - apply (mode_standard mode s x') in E; [|exact M]. subst x'. exact R.
  - unfold unflatten_controller, flatten_controller, save, load in E. rewrite flatten_round_trip in E. cbn [bind] in E. injection E as <-. destruct R. constructor; assumption.
  - unfold unflatten_builder, flatten_builder in E. rewrite flatten_round_trip in E. injection E as <-. destruct R. constructor; assumption.
  - unfold unflatten_viewer, flatten_viewer in E. rewrite flatten_round_trip in E. injection E as <-. destruct R. constructor; assumption.
  - unfold unflatten_editor, flatten_editor in E. rewrite (surjective_pairing (tree_flatten_state (ed_state e))) in E. cbn [fst snd] in E.
    rewrite flatten_round_trip in E. cbn [bind] in E. injection E as <-. destruct R. constructor; assumption.
Qed.
Lemma new_in_range em b d eps dep (s : state QcNum) :
  (0 <= dep)%Qc -> new_builder_with (N := QcNum) em b d eps dep = Ok s -> in_range s.
Proof.
  intros D H. destruct em as [m|]; [|exfalso; exact (new_builder_never b d eps dep s H)].
  apply new_builder_with_ok in H as (_ & [E1 E2] & _ & ->). apply in_range_iff. unfold empty_state.
  cbn [epsilon depression_constant probabilities residuals iterations]. cbn [s_leb s_one s_zero QcNum] in E1, E2.
  assert (Z : forall sh, Forall (eq 0%Qc) (a_data (a_full (N := QcNum) sh 0%Qc (core d)))).
  { intros sh. apply Forall_forall. intros x Hx. apply repeat_spec in Hx. now subst. }
  assert (U : forall sh, unit_data (a_data (a_full (N := QcNum) sh 0%Qc (core d)))).
  { intros sh. eapply Forall_impl; [|apply Z]. intros x <-. split; discriminate. }
  assert (V : forall sh, Forall (fun x => 0 <= x)%Qc (a_data (a_full (N := QcNum) sh 0%Qc (core d)))).
  { intros sh. eapply Forall_impl; [|apply Z]. intros x <-. discriminate. }
  split; [|split; [exact D|split; [apply U|split; [apply U|apply V]]]].
  apply Qcleb_gt in E1, E2. split; apply Qclt_le_weak; assumption.
Qed.
Theorem run_in_range planned (vs : list (pyval QcNum)) cs es vs' :
  Forall (fun v => consistent planned v /\ in_range (inside v)) vs -> Forall (hcall_ok planned) cs -> Forall hcall_ranged cs ->
  pure_run vs cs = (es, vs') -> Forall (fun v => consistent planned v /\ in_range (inside v)) vs'.
Proof.
  revert vs es. induction cs as [|c cs IH]; intros vs es C O Q H; cbn [pure_run] in H; [congruence|].
  apply Forall_cons_iff in O as [Oc Ocs]. apply Forall_cons_iff in Q as [Qc0 Qcs].
  destruct (pure_run match pure_do vs c with Ok v => vs ++ [v] | Err _ => vs end cs) as [es1 vs1] eqn:E. injection H as _ <-.
  eapply IH; [|exact Ocs|exact Qcs|exact E]. destruct (pure_do vs c) as [v|] eqn:Ed; [|exact C].
  apply Forall_app. split; [exact C|]. constructor; [|constructor].
  destruct c as [i m|em b d eps dep]; cbn [pure_do hcall_ok hcall_ranged] in *.
  - destruct (nth_error vs i) as [v0|] eqn:En; [|discriminate]. rewrite Forall_forall in C.
    destruct (C v0 (nth_error_In _ _ En)) as [C0 R0]. split; [exact (call_consistent planned m v0 v C0 Oc Ed)|].
    exact (call_in_range planned m v0 v C0 R0 Oc Qc0 Ed).
  - destruct (new_builder_with em b d eps dep) as [s|] eqn:En; [|discriminate]. injection Ed as <-.
    split; [exact (new_consistent _ _ _ _ _ _ _ En)|]. exact (new_in_range _ _ _ _ _ _ Qc0 En).
Qed.
