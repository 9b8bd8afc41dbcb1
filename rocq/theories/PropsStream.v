(** * C101: a place of the batch can be used for one input after another. Vocabulary: StreamSpec.v, Wf.v ([agree]). *)
From Coq Require Import QArith Qcanon.
From Verif Require Import Base PyTree Tensor Num Utils States Controller Builder Wf Spec History ElementSpec StreamSpec.
From Verif Require Import BaseFacts TensorFacts ControllerFacts IterateFacts ResetFacts HistoryFacts AgreeFacts MaskFacts ElementFacts ExactFacts Samples.
From Verif Require Import PropsController.
Close Scope Qc_scope. Close Scope Q_scope. Open Scope string_scope. Open Scope list_scope. Open Scope nat_scope.

Lemma some_eq {A} (x y : A) : Some x = Some y -> x = y. Proof. now intros [= ->]. Qed.
Lemma ok_eq {A} (x y : A) : Ok x = Ok y -> x = y. Proof. now intros [= ->]. Qed.
Lemma cn_reset {N} (c : call N) : c = CReset \/ c <> CReset. Proof. destruct c; [right; discriminate|right; discriminate|now left]. Qed.
Section Stream.
  Context {N : numsys}.
  Notation st := (state N).
  Lemma agree_arr_trans i B (a b c : array N) : agree_arr i B a b -> agree_arr i B b c -> agree_arr i B a c.
  Proof.
    intros [S1 H1] [S2 H2]. split; [congruence|]. intros R HR j Hj. rewrite (H1 R HR j Hj). apply (H2 R); [|exact Hj].
    injection S1 as E _. unfold a_shape in *. congruence.
  Qed.
  Lemma agree_tree_trans i B (a b c : tree (array N)) : agree_tree i B a b -> agree_tree i B b c -> agree_tree i B a c.
  Proof.
    intros [S1 H1] [S2 H2]. split; [congruence|]. apply Forall2_nth in H1 as [L1 H1]. apply Forall2_nth in H2 as [L2 H2].
    apply Forall2_nth. split; [congruence|]. intros l x z Hx Hz. destruct (nth_error_same_length _ _ _ _ L1 Hx) as [y Hy].
    exact (agree_arr_trans _ _ _ _ _ (H1 l x y Hx Hy) (H2 l y z Hy Hz)).
  Qed.
  Lemma agree_dict_trans i B (a b c : dict (tree (array N))) : agree_dict i B a b -> agree_dict i B b c -> agree_dict i B a c.
  Proof.
    intros [S1 H1] [S2 H2]. split; [congruence|]. intros k x z Hx Hz.
    assert (Hin : In k (dkeys b)) by (rewrite <- S1; apply dget_keys; eauto). apply dget_keys in Hin as [y Hy].
    exact (agree_tree_trans _ _ _ _ _ (H1 k x y Hx Hy) (H2 k y z Hy Hz)).
  Qed.
  Lemma agree_shape i (a b : st) : agree i a b -> batch_shape a = batch_shape b.
  Proof. intros []. destruct ag_p as [E _]. injection E as E _. exact E. Qed.
  Lemma agree_trans i (a b c : st) : agree i a b -> agree i b c -> agree i a c.
  Proof.
    intros A B. pose proof (agree_shape _ _ _ A) as E. destruct A, B. rewrite <- E in *.
    constructor; try congruence; eauto using agree_arr_trans, agree_dict_trans.
  Qed.

  (** A reset that finds the element running. *)
  Lemma reset_others (s s' : st) i : (forall v, v_mul N v (v_one N) = v) ->
    wf s -> reset_batches s = Ok s' -> halted s i = Some false -> agree i s' s.
  Proof.
    intros One W H Hi. destruct (reset_any s s' W H) as ((E1 & E2 & E3 & E4 & E5) & (S1 & S2 & S3 & S4) & E).
    destruct (E i false Hi) as (P1 & P2 & P3 & P4).
    assert (Bs : batch_shape s' = batch_shape s) by (injection S1 as X _; exact X).
    assert (St : forall a' a : array N, sig a' = sig a -> a_shape a = batch_shape s ->
      nth_error (a_data a') i = option_map (fun v => v_mul N v (v_one N)) (nth_error (a_data a) i) -> agree_arr i (batch_shape s') a' a).
    { intros a' a Sg Sh En. split; [exact Sg|]. intros R HR j Hj. injection Sg as Sg _.
      assert (R = []). { assert (X : a_shape a' = a_shape a) by exact Sg. rewrite X, Sh, Bs in HR. rewrite <- (app_nil_r (batch_shape s)) in HR at 1. now apply app_inv_head in HR. }
      subst R. rewrite size_nil, Nat.div_1_r in Hj. subst j. rewrite En. destruct (nth_error (a_data a) i); cbn; [now rewrite One|reflexivity]. }
    constructor; auto.
    - apply St; auto. apply W.
    - apply St; auto. apply W.
    - split; [exact S4|]. intros k t' t Ht' Ht. destruct (P4 k t Ht) as (d & t1 & Hd & Ht1 & [A1 A2] & L). assert (t1 = t') by congruence. subst t1.
      split; [exact A1|]. apply Forall2_nth. split; [apply (f_equal (@length _)) in A2; now rewrite !map_length in A2|].
      intros l a' a Ha' Ha. assert (Sg : sig a' = sig a).
      { apply (f_equal (fun x => nth_error x l)) in A2. rewrite !nth_error_map, Ha', Ha in A2. now apply some_eq in A2. }
      split; [exact Sg|]. intros R HR j Hj. injection Sg as Sg _. assert (X : a_shape a' = a_shape a) by exact Sg. rewrite X, Bs in HR.
      destruct (wf_def _ W k t d Ht Hd) as [[B1 B2] _].
      assert (exists dl, nth_error (leaves d) l = Some dl) as [dl Hdl].
      { apply (f_equal (@length _)) in B2. rewrite !map_length in B2. destruct (nth_error_same_length _ _ _ _ B2 Ha) as [dl X']. eauto. }
      exact (L l a dl a' Ha Hdl Ha' R HR j Hj).
    - rewrite E4, Bs. apply (agree_refl i s).
    - rewrite E5, Bs. apply (agree_refl i s).
  Qed.
  Definition nones (s : st) : Prop := forall k u, dget k (updates s) = Some u -> is_none u = true -> u = tnone.
  Lemma nones_after (s : st) c : wf s -> wf_pending s -> call_wf c -> plain_none c -> nones s -> nones (after s c).
  Proof.
    intros W P Cw Pn H. unfold after. destruct (apply_call s c) as [s'|e] eqn:E; [|exact H]. destruct c as [name item|h|]; cbn [apply_call call_wf plain_none] in *.
    - rewrite cache_update_char in E. destruct (dget name (updates s)) as [u|] eqn:Eu; [|discriminate]. destruct (is_none u); [|discriminate].
      apply ok_eq in E. subst s'. intros k u' Hu' Hn. cbn [with_updates updates] in Hu'. destruct (String.eqb k name) eqn:Ek.
      + apply String.eqb_eq in Ek. subst k. rewrite dget_dset_eq in Hu'. apply some_eq in Hu'. subst u'. auto.
      + apply String.eqb_neq in Ek. rewrite dget_dset_neq in Hu' by exact Ek. eauto.
    - destruct (iterate_committed s h s' W P Cw E) as (C & _ & _). intros k u Hu _. assert (I : In k (dkeys (updates s))) by (rewrite <- (cm_keys_u _ _ _ C); apply dget_keys; eauto).
      rewrite (cm_upd _ _ _ C k I) in Hu. now apply some_eq in Hu.
    - destruct (reset_any s s' W E) as ((_ & _ & _ & _ & X) & _). unfold nones. now rewrite X.
  Qed.
  (** Zero times what the element has gathered is zero. *)
  Definition clears (s : st) (i : nat) : Prop :=
    forall p r n, element s i p r n -> halted_at s p = true -> v_mul N p (v_zero N) = v_zero N /\ v_mul N r (v_zero N) = v_zero N /\ v_mul N n (v_zero N) = v_zero N.
  Lemma batch_agree (s0 : st) i (a' a : array N) : a_shape a' = batch_shape s0 -> sig a' = sig a ->
    nth_error (a_data a') i = nth_error (a_data a) i -> agree_arr i (batch_shape s0) a' a.
  Proof.
    intros Sh Sg En. split; [exact Sg|]. intros R HR j Hj.
    assert (R = []). { rewrite Sh in HR. rewrite <- (app_nil_r (batch_shape s0)) in HR at 1. now apply app_inv_head in HR. }
    subst R. rewrite size_nil, Nat.div_1_r in Hj. now subst j.
  Qed.
  (** A reset that finds the element halted. *)
  Lemma reset_this (s0 s s' : st) i : wf s0 -> fresh s0 -> same_frame s0 s -> clears s i ->
    nones s -> wf s -> reset_batches s = Ok s' -> halted s i = Some true -> agree i s' s0.
  Proof.
    intros W0 (Z1 & Z2 & Z3 & Z4 & Z5) Fr Cl Nn W H Hi. destruct (reset_any s s' W H) as ((E1 & E2 & E3 & E4 & E5) & (S1 & S2 & S3 & S4) & E).
    destruct (E i true Hi) as (P1 & P2 & P3 & P4).
    assert (Id : idle s) by (apply (proj1 (reset_ok_iff s W)); eauto).
    destruct Fr as [F1 F2 F3 F4 F5 F6 F7 F8 F9 F10].
    assert (Bs : batch_shape s = batch_shape s0) by (injection F5 as X _; exact X).
    assert (Bs' : batch_shape s' = batch_shape s0) by (rewrite <- Bs; injection S1 as X _; exact X).
    assert (Li : i < size (batch_shape s0)).
    { unfold halted in Hi. apply nth_error_some_lt in Hi. rewrite (halted_length s W) in Hi. rewrite <- Bs. exact Hi. }
    assert (Lp : forall a : array N, awf a -> a_shape a = batch_shape s0 -> exists v, nth_error (a_data a) i = Some v).
    { intros a Aw Sh. apply nth_error_lt. unfold awf, twf in Aw. unfold a_shape in Sh. rewrite Sh in Aw. unfold a_data. now rewrite Aw. }
    destruct (Lp _ (wf_p _ W) Bs) as [p Hp]. destruct (Lp _ (wf_r _ W)) as [r Hr]; [rewrite <- Bs; apply W|].
    destruct (Lp _ (wf_i _ W)) as [n Hn]; [rewrite <- Bs; apply W|].
    destruct (Cl p r n) as (C1 & C2 & C3); [repeat split; assumption|pose proof (halted_get s i p Hp) as X; unfold halted in Hi; rewrite Hi in X; now apply some_eq in X|].
    assert (Zr : forall a : array N, Forall (eq (v_zero N)) (a_data a) -> awf a -> a_shape a = batch_shape s0 -> nth_error (a_data a) i = Some (v_zero N)).
    { intros a Fa Aw Sh. destruct (Lp a Aw Sh) as [v Hv]. rewrite Hv. f_equal. symmetry. exact (Forall_nth _ _ _ _ Fa Hv). }
    assert (Sh : forall a' a : array N, sig a' = sig a -> a_shape a' = a_shape a) by (intros a' a X; injection X as X _; exact X).
    constructor; try congruence; rewrite ?Bs'.
    - apply batch_agree; [exact Bs'|congruence|]. rewrite P1, Hp. cbn. rewrite C1. symmetry. apply Zr; auto. apply W0.
    - apply batch_agree; [rewrite (Sh _ _ S2), <- Bs; apply W|congruence|]. rewrite P2, Hr. cbn. rewrite C2. symmetry. apply Zr; auto; apply W0.
    - apply batch_agree; [rewrite (Sh _ _ S3), <- Bs; apply W|congruence|]. rewrite P3, Hn. cbn. rewrite C3. symmetry. apply Zr; auto; apply W0.
    - split; [congruence|]. intros k t' t0 Ht' Ht0.
      assert (exists t, dget k (accumulators s) = Some t) as [t Ht] by (apply dget_keys; rewrite <- S4; apply dget_keys; eauto).
      destruct (P4 k t Ht) as (d & t1 & Hd & Ht1 & [A1 A2] & L). assert (t1 = t') by congruence. subst t1.
      destruct (F10 k t0 t Ht0 Ht) as [B1 B2].
      assert (d = t0). { rewrite F4 in Hd. rewrite Z4 in Ht0. congruence. } subst d.
      split; [congruence|]. assert (AB : map sig (leaves t') = map sig (leaves t0)) by congruence.
      apply Forall2_nth. split; [apply (f_equal (@length _)) in AB; now rewrite !map_length in AB|].
      intros l a' a Ha' Ha. assert (Sg : sig a' = sig a).
      { apply (f_equal (fun x => nth_error x l)) in AB. rewrite !nth_error_map, Ha', Ha in AB. now apply some_eq in AB. }
      split; [exact Sg|]. intros R HR j Hj.
      assert (exists b, nth_error (leaves t) l = Some b /\ sig a' = sig b) as (b & Hb & Sb).
      { assert (A2' := A2). apply (f_equal (@length _)) in A2'. rewrite !map_length in A2'. destruct (nth_error_same_length _ _ _ _ A2' Ha') as [b Hb]. exists b. split; [exact Hb|].
        apply (f_equal (fun x => nth_error x l)) in A2. rewrite !nth_error_map, Ha', Hb in A2. now apply some_eq in A2. }
      apply (L l b a a' Hb Ha Ha' R); [|exact Hj]. rewrite <- (Sh _ _ Sb), Bs. exact HR.
    - rewrite E4, F4. apply (agree_refl i s0).
    - rewrite E5. split; [exact F9|]. intros k u u0 Hu Hu0. pose proof (Id k u Hu) as X. rewrite (Z5 k u0 Hu0).
      rewrite (Nn k u Hu X). split; [reflexivity|constructor].
  Qed.

  Lemma agree_call_refl i B (c : call N) : agree_call i B c c.
  Proof.
    assert (A : forall a : array N, agree_arr i B a a) by (intros a; split; auto).
    destruct c as [name item|h|]; cbn; auto. split; [reflexivity|]. split; [reflexivity|]. induction (leaves item); constructor; auto.
  Qed.
  Lemma same_course i (s1 s2 : st) c : wf s1 -> wf s2 -> wf_pending s1 -> wf_pending s2 -> call_wf c -> c <> CReset -> agree i s1 s2 ->
    match apply_call s1 c, apply_call s2 c with
    | Ok s1', Ok s2' => agree i s1' s2'
    | Err e1, Err e2 => e1 = e2
    | _, _ => False
    end.
  Proof.
    intros W1 W2 P1 P2 Cw Nr A. pose proof (agree_call_refl i (batch_shape s1) c) as Rf. destruct c as [name item|h|]; [| |contradiction]; cbn [apply_call agree_call call_wf] in *.
    - apply cache_agree; [exact A|apply Rf].
    - now apply C08_iterate_same_outcome.
  Qed.
  Lemma current_agrees (s0 : st) i : (forall v, v_mul N v (v_one N) = v) -> wf s0 -> fresh s0 ->
    forall h s done, (forall pre post, h = pre ++ post -> clears (run s pre) i) ->
    wf s -> wf_pending s -> nones s -> same_frame s0 s -> i < size (batch_shape s0) ->
    Forall call_wf h -> Forall plain_none h -> Forall call_wf done -> Forall (fun c => c <> CReset) done -> returned s0 done = done ->
    agree i s (run s0 done) ->
    agree i (run s h) (run s0 (current i s done h)) /\ returned s0 (current i s done h) = current i s done h /\
    Forall (fun c => c <> CReset) (current i s done h).
  Proof.
    intros One W0 F0. assert (P0 := Samples.fresh_wf_pending _ F0).
    induction h as [|c h IH]; intros s done Cl W P Nn Fr Li Cw Pn Cd Rd Ret A.
    { change (run s []) with s. cbn [current]. auto. }
    apply Forall_cons_iff in Cw as [Cw1 Cw2]. apply Forall_cons_iff in Pn as [Pn1 Pn2].
    assert (Cl' : forall pre post, h = pre ++ post -> clears (run (after s c) pre) i).
    { intros pre post E. apply (Cl (c :: pre) post). cbn. congruence. }
    destruct (after_wf s c W P Cw1) as [W' P']. pose proof (nones_after s c W P Cw1 Pn1 Nn) as Nn'.
    assert (Fr' : same_frame s0 (after s c)) by (apply (same_frame_trans _ s); [exact Fr|now apply after_frame]).
    change (run s (c :: h)) with (run (after s c) h). cbn [current].
    destruct (run_wf s0 done W0 P0 Cd) as [Wd Pd].
    destruct (apply_call s c) as [s'|e] eqn:E; unfold after in *; rewrite E in *; [|now apply IH].
    destruct (cn_reset c) as [->|Nr].
    - cbn [apply_call] in E. 
      assert (exists b, halted s i = Some b) as [b Hb].
      { apply nth_error_lt. rewrite (halted_length s W). assert (X := sf_p _ _ Fr). injection X as X _. unfold batch_shape, a_shape in *. now rewrite X. }
      unfold halted in Hb. rewrite Hb. destruct b.
      + apply IH; auto. change (run s0 []) with s0. apply (reset_this s0 s s' i); auto. apply (Cl [] (CReset :: h)). reflexivity.
      + apply IH; auto. apply (agree_trans i s' s); [|exact A]. now apply reset_others.
    - replace (match c with CReset => match nth_error (data (halted_batches s)) i with Some true => [] | _ => done end | _ => done ++ [c] end) with (done ++ [c]) by (destruct c; [reflexivity|reflexivity|contradiction]).
      pose proof (same_course i s (run s0 done) c W Wd P Pd Cw1 Nr A) as X. rewrite E in X. destruct (apply_call (run s0 done) c) as [s2|e2] eqn:E2; [|contradiction].
      apply IH; auto.
      + apply Forall_app. auto.
      + apply Forall_app. auto.
      + rewrite returned_app, Ret. cbn [returned]. now rewrite E2.
      + rewrite run_app. change (run (run s0 done) [c]) with (after (run s0 done) c). unfold after. now rewrite E2.
  Qed.

  (** Inputs one after another: each finds the element as a new controller has it. *)
  Lemma stream_agrees (s0 : st) i : wf s0 -> fresh s0 -> i < size (batch_shape s0) ->
    forall inputs s, (forall pre post, stream inputs = pre ++ post -> clears (run s pre) i) ->
    wf s -> wf_pending s -> nones s -> same_frame s0 s -> Forall (Forall call_wf) inputs -> Forall (Forall plain_none) inputs ->
    Forall (fun e => halted (run s0 e) i = Some true /\ is_ok (reset_batches (run s0 e)) = true) inputs ->
    agree i s s0 -> agree i (run s (stream inputs)) s0.
  Proof.
    intros W0 F0 Li. assert (P0 := Samples.fresh_wf_pending _ F0).
    induction inputs as [|e inputs IH]; intros s Cl W P Nn Fr Cw Pn Hal A; [exact A|].
    apply Forall_cons_iff in Cw as [Cw1 Cw2]. apply Forall_cons_iff in Pn as [Pn1 Pn2]. apply Forall_cons_iff in Hal as [[Ha1 Ha2] Hal].
    assert (Es : stream (e :: inputs) = e ++ CReset :: stream inputs) by (unfold stream; cbn [map concat]; now rewrite <- app_assoc).
    rewrite Es in *. rewrite run_app. change (run (run s e) (CReset :: stream inputs)) with (run (after (run s e) CReset) (stream inputs)).
    destruct (run_wf s e W P Cw1) as [We Pe]. destruct (run_wf s0 e W0 P0 Cw1) as [We0 Pe0].
    assert (Ae : agree i (run s e) (run s0 e)).
    { apply run_agree; auto. clear. induction e; constructor; auto using agree_call_refl. }
    assert (Fe : same_frame s0 (run s e)) by (apply (same_frame_trans _ s); [exact Fr|now apply run_frame]).
    assert (Ne : nones (run s e)).
    { clear - W P Nn Cw1 Pn1. revert s W P Nn. induction e as [|c e IHe]; intros s W P Nn; [exact Nn|].
      inversion Cw1; inversion Pn1; subst. rewrite run_cons. destruct (after_wf s c W P) as [W' P']; auto. apply IHe; auto using nones_after. }
    assert (Hh : halted (run s e) i = Some true).
    { assert (exists p, (probabilities (run s0 e)).[i] = Some p) as [p Hp].
      { apply nth_error_lt. rewrite (wf_batch_len _ We0). assert (X := sf_p _ _ (run_frame s0 e W0 P0 Cw1)). injection X as X _. unfold batch_shape, a_shape in *. now rewrite X. }
      assert (Hp' : (probabilities (run s e)).[i] = Some p).
      { rewrite <- Hp. destruct (ag_p _ _ _ Ae) as [_ X]. apply (X []); [symmetry; apply app_nil_r|]. rewrite size_nil. apply Nat.div_1_r. }
      unfold halted in *. rewrite (halted_get _ _ _ Hp) in Ha1. rewrite (halted_get _ _ _ Hp'). rewrite <- Ha1. unfold halted_at, threshold. now rewrite (ag_eps _ _ _ Ae). }
    pose proof (reset_agree i (run s e) (run s0 e) We We0 Ae) as Ra. unfold after. cbn [apply_call] in *.
    destruct (reset_batches (run s0 e)) as [s2|x]; [|discriminate]. destruct (reset_batches (run s e)) as [s1|x] eqn:E1; [|contradiction].
    assert (Ea : after (run s e) CReset = s1) by (unfold after; cbn [apply_call]; now rewrite E1).
    destruct (after_wf (run s e) CReset We Pe I) as [W1 P1]. rewrite Ea in W1, P1.
    apply IH; auto.
    - intros pre post E. pose proof (Cl (e ++ CReset :: pre) post) as X. rewrite run_app, run_cons, Ea in X. apply X. now rewrite E, <- app_assoc.
    - rewrite <- Ea. now apply nones_after.
    - rewrite <- Ea. apply (same_frame_trans _ (run s e)); [exact Fe|now apply after_frame].
    - apply (reset_this s0 (run s e) s1 i); auto. apply (Cl e (CReset :: stream inputs)). reflexivity.
  Qed.
End Stream.

(** ** Exact arithmetic *)
Lemma clears_exact (s : state QcNum) i : clears s i.
Proof. intros p r n _ _. cbn [v_mul v_zero QcNum]. repeat split; match goal with |- ?a = ?b => change (@eq Qc a b) end; ring. Qed.
Lemma one_exact (v : val QcNum) : v_mul QcNum v (v_one QcNum) = v.
Proof. cbn [v_mul v_one QcNum]. match goal with |- ?a = ?b => change (@eq Qc a b) end. ring. Qed.
Lemma fresh_nones {N} (s : state N) : fresh s -> nones s.
Proof. intros (_ & _ & _ & _ & H) k u Hu _. eauto. Qed.
Lemma stream_wf {N} (inputs : list (list (call N))) : Forall (Forall call_wf) inputs -> Forall call_wf (stream inputs).
Proof.
  induction inputs as [|e inputs IH]; intros Cw; [constructor|]. inversion Cw; subst. unfold stream. cbn [map concat].
  apply Forall_app. split; [apply Forall_app; split; auto; repeat constructor|auto].
Qed.
(** What is computed for an element depends only on the calls since the last reset that found it halted: it is as if the
    others, the resets in between included, had not been made. *)
Theorem C101_only_the_calls_since_the_reset (s0 : state QcNum) h i :
  wf s0 -> fresh s0 -> i < size (batch_shape s0) -> Forall call_wf h -> Forall plain_none h ->
  agree i (run s0 h) (run s0 (current i s0 [] h)) /\
  returned s0 (current i s0 [] h) = current i s0 [] h /\ Forall (fun c => c <> CReset) (current i s0 [] h).
Proof.
  intros W F Li Cw Pn. apply current_agrees; auto using one_exact, clears_exact, fresh_nones, same_frame_refl, agree_refl.
  - exact (Samples.fresh_wf_pending _ F).
Qed.
Print Assumptions C101_only_the_calls_since_the_reset.
(** One input after another: the results of the last are those of a new controller. *)
Theorem C101_one_input_after_another (s0 : state QcNum) inputs cs i :
  wf s0 -> fresh s0 -> i < size (batch_shape s0) ->
  Forall (Forall call_wf) inputs -> Forall (Forall plain_none) inputs -> Forall call_wf cs ->
  Forall (fun e => halted (run s0 e) i = Some true /\ is_ok (reset_batches (run s0 e)) = true) inputs ->
  agree i (run s0 (stream inputs ++ cs)) (run s0 cs).
Proof.
  intros W F Li Cw Pn Cc Hal. assert (P := Samples.fresh_wf_pending _ F). rewrite run_app.
  assert (Cs : Forall call_wf (stream inputs)) by now apply stream_wf.
  destruct (run_wf s0 _ W P Cs) as [W' P']. apply run_agree; auto.
  - apply stream_agrees; auto using clears_exact, fresh_nones, same_frame_refl, agree_refl.
  - clear. induction cs; constructor; auto using agree_call_refl.
Qed.
Print Assumptions C101_one_input_after_another.

(** The controller of C64: the first reset raises (an update is pending), the second finds element 0 halted and element 1 running. *)
Definition size_of {N} (c : call N) : nat := match c with CCache _ _ => 1 | CIter _ => 2 | CReset => 3 end.
Example C101_case : wf ctl1 /\ fresh ctl1 /\ 1 < size (batch_shape ctl1) /\ Forall call_wf calls1 /\ Forall plain_none calls1 /\
  map size_of calls1 = [1; 3; 2; 1; 2; 3; 1; 2] /\
  map size_of (current 0 ctl1 [] calls1) = [1; 2] /\ map size_of (current 1 ctl1 [] calls1) = [1; 2; 1; 2; 1; 2] /\
  halted (run ctl1 (firstn 5 calls1)) 0 = Some true /\ is_ok (reset_batches (run ctl1 (firstn 5 calls1))) = true /\
  halted (run ctl1 calls1) 0 = Some false.
Proof. destruct ctl1_ok as [W F]. split; [exact W|]. split; [exact F|]. split; [vm_compute; lia|]. split; [repeat constructor|]. split; [repeat constructor; discriminate|].
  do 5 (split; [vm_compute; reflexivity|]). vm_compute; reflexivity. Qed.
