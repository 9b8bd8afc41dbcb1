(** * C101 in IEEE-754 arithmetic, NaN included. Vocabulary: StreamSpec.v, Wf.v ([agree]), FloatSpec.v. *)
From Coq Require Import ZArith Reals Lia Lra.
From Flocq Require Import Core BinarySingleNaN.
From Verif Require Import Base PyTree Tensor Num FloatNum FloatSpec Utils States Controller Builder Wf Spec History ElementSpec StreamSpec.
From Verif Require Import BaseFacts TensorFacts ControllerFacts IterateFacts ResetFacts HistoryFacts AgreeFacts ExactFacts ElementFacts FloatFacts FloatFacts2.
From Verif Require Import PropsController PropsFloat PropsNan PropsStream.
Close Scope R_scope. Close Scope Z_scope. Open Scope string_scope. Open Scope list_scope. Open Scope nat_scope.

Section Formats.
  Context {prec emax : Z} {Hp : Prec_gt_0 prec} {Hm : Prec_lt_emax prec emax} (H2 : (2 <= prec)%Z).
  Notation N := (FloatNum prec emax).
  Notation bf := (binary_float prec emax).
  (** finite and without a minus sign *)
  Definition plus_sign (x : bf) : Prop := is_finite x = true /\ Bsign x = false.
  Lemma positive_plus (x : bf) : is_finite x = true -> (0 < B2R x)%R -> plus_sign x.
  Proof.
    intros F L. split; [exact F|]. destruct x as [s|s| |s m e Hb]; try discriminate.
    - cbn in L. lra.
    - destruct s; [|reflexivity]. exfalso. cbn [B2R] in L. assert (X := F2R_lt_0 radix2 (Float radix2 (cond_Zopp true (Z.pos m)) e) ltac:(reflexivity)). lra.
  Qed.
  Lemma plus_cleared (x : bf) : plus_sign x -> f_mul x f_zero = (f_zero : bf).
  Proof. intros [F S]. destruct x as [s|s| |s m e Hb]; try discriminate; cbn in *; now subst s. Qed.
  Lemma zero_plus : plus_sign (f_zero : bf).
  Proof. split; reflexivity. Qed.
  Lemma rest_plus (p : bf) : funit p -> plus_sign (f_sub f_one p).
  Proof.
    intros U. assert (U' := U). destruct U as [F [A B]]. destruct (sub_one prec emax H2 p U') as [[F' _] E]. split; [exact F'|].
    pose proof (Bminus_correct prec emax Hp Hm mode_NE f_one p (one_finite prec emax) F) as X.
    destruct (Rlt_bool _ _).
    - destruct X as (_ & _ & X). unfold f_sub. rewrite X. rewrite one_R. destruct (Rcompare_spec (1 - B2R p) 0); [lra| |reflexivity].
      cbn. assert (S : Bsign (f_one : bf) = false) by apply Bsign_Bone. now rewrite S.
    - exfalso. unfold f_sub in F'. destruct X as [X _]. apply (f_equal (fun o => match o with SpecFloat.S754_infinity _ => true | _ => false end)) in X.
      destruct (Bminus mode_NE f_one p); cbn in *; discriminate.
  Qed.
  Definition tally (n : bf) : Prop := plus_sign n /\ exists k, (0 <= k <= 2 ^ prec)%Z /\ counts n k.
  Lemma tally_step (n : bf) : tally n -> tally (f_add n f_one).
  Proof.
    intros (_ & k & K & C). assert (P2 : (0 < 2 ^ prec)%Z) by (apply Z.pow_pos_nonneg; lia).
    pose proof (count_step prec emax H2 n k K C) as C'. split; [|exists (Z.min (k + 1) (2 ^ prec)); split; [lia|exact C']].
    destruct C' as [F E]. apply positive_plus; [exact F|]. rewrite E. apply IZR_lt. lia.
  Qed.
  Definition kept_well (p r n : val N) : Prop :=
    (p = (B754_nan : bf) \/ funit (p : bf)) /\ plus_sign (r : bf) /\ tally (n : bf).
  Lemma nan_dec (x : bf) : x = B754_nan \/ is_nan x = false.
  Proof. destruct x; auto. Qed.
  Lemma kept_well_step (s : state N) p r n v : eps_ok (epsilon s) -> dep_ok prec emax (depression_constant s) ->
    kept_well p r n -> kept_well (next_p s p v) (next_r s p r v) (next_i s p n).
  Proof.
    intros He Hd (Kp & Kr & Kn). split; [|split].
    - destruct Kp as [->|U]; [left; apply next_nan_p|]. destruct (nan_dec (v : bf)) as [->|V]; [left; apply next_nan_v|].
      right. now apply (step_unit prec emax H2 s He Hd p v).
    - unfold next_r. destruct (halts_now s p v) eqn:E; [|exact Kr]. cbn [andb]. destruct (negb _); [|exact Kr].
      destruct Kp as [->|U]; [rewrite halts_nan_p in E; discriminate|]. exact (rest_plus p U).
    - unfold next_i. destruct (halted_at s p); [exact Kn|]. exact (tally_step n Kn).
  Qed.
  Lemma above_plus (s : state N) (p : bf) : eps_ok (epsilon s) -> funit p -> halted_at s p = true -> plus_sign p.
  Proof.
    intros He [F U] H. apply positive_plus; [exact F|]. destruct (threshold_unit prec emax H2 s He) as [Ft [T0 _]].
    unfold halted_at in H. cbn [v_ltb FloatNum] in H. apply (ltb_R prec emax (threshold s) p Ft F) in H. lra.
  Qed.
  Lemma kept_well_kept (s : state N) p r n : eps_ok (epsilon s) -> kept_well p r n -> kept_well (kept s p p) (kept s p r) (kept s p n).
  Proof.
    intros He (Kp & Kr & Kn). unfold kept, v_of_bool. cbn [v_mul v_one v_zero FloatNum]. destruct (halted_at s p) eqn:E; cbn [negb].
    - assert (U : funit (p : bf)) by (destruct Kp as [->|U]; [rewrite halted_nan in E; discriminate|exact U]).
      rewrite (plus_cleared p (above_plus s p He U E)), (plus_cleared r Kr), (plus_cleared n (proj1 Kn)).
      split; [right; split; [reflexivity|cbn; lra]|]. split; [exact zero_plus|]. split; [exact zero_plus|]. exists 0%Z. split; [lia|]. split; reflexivity.
    - rewrite !mul_one_r. repeat split; try apply Kr; try apply Kn; auto.
  Qed.
  Lemma clears_float (s0 : state N) cs i : wf s0 -> fresh s0 -> Forall call_wf cs -> eps_ok (epsilon s0) -> dep_ok prec emax (depression_constant s0) ->
    clears (run s0 cs) i.
  Proof.
    intros W F Cw He Hd p r n El Hh. assert (P := Samples.fresh_wf_pending _ F).
    assert (K : kept_well p r n).
    { apply (run_element (fun _ => True) kept_well s0) with (cs := cs) (s := s0) (i := i); auto.
      - intros. now apply kept_well_step.
      - intros. now apply kept_well_kept.
      - clear. apply Forall_forall. intros [name item|h|] _; cbn; auto. apply Forall_forall. auto.
      - intros j p0 r0 n0 (A & B & C). destruct F as (F1 & F2 & F3 & _). pose proof (Forall_nth _ _ _ _ F1 A). pose proof (Forall_nth _ _ _ _ F2 B). pose proof (Forall_nth _ _ _ _ F3 C).
        cbv beta in *. subst p0 r0 n0. split; [right; split; [reflexivity|cbn; lra]|]. split; [exact zero_plus|]. split; [exact zero_plus|]. exists 0%Z. split; [|split; reflexivity].
        assert (0 < 2 ^ prec)%Z by (apply Z.pow_pos_nonneg; lia). lia. }
    assert (E : epsilon (run s0 cs) = epsilon s0) by apply (sf_eps _ _ (run_frame s0 cs W P Cw)).
    destruct K as (Kp & Kr & Kn). cbn [v_mul v_zero FloatNum].
    assert (U : funit (p : bf)) by (destruct Kp as [->|U]; [rewrite halted_nan in Hh; discriminate|exact U]).
    split; [|split; [exact (plus_cleared r Kr)|exact (plus_cleared n (proj1 Kn))]].
    apply plus_cleared. apply (above_plus (run s0 cs)); [now rewrite E|exact U|exact Hh].
  Qed.
End Formats.

(** In every binary format, NaN and infinities among the halting values and the updates included. *)
Theorem C101_float_only_the_calls_since_the_reset (prec emax : Z) {Hp : Prec_gt_0 prec} {Hm : Prec_lt_emax prec emax}
  (s0 : state (FloatNum prec emax)) h i :
  (2 <= prec)%Z -> wf s0 -> fresh s0 -> eps_ok (epsilon s0) -> dep_ok prec emax (depression_constant s0) ->
  i < size (batch_shape s0) -> Forall call_wf h -> Forall plain_none h ->
  agree i (run s0 h) (run s0 (current i s0 [] h)) /\
  returned s0 (current i s0 [] h) = current i s0 [] h /\ Forall (fun c => c <> CReset) (current i s0 [] h).
Proof.
  intros H2 W F He Hd Li Cw Pn. apply current_agrees; auto using fresh_nones, same_frame_refl, agree_refl.
  - intros v. exact (mul_one_r prec emax v).
  - intros pre post ->. apply Forall_app in Cw as [Cw _]. now apply clears_float.
  - exact (Samples.fresh_wf_pending _ F).
Qed.
Print Assumptions C101_float_only_the_calls_since_the_reset.
Theorem C101_float_one_input_after_another (prec emax : Z) {Hp : Prec_gt_0 prec} {Hm : Prec_lt_emax prec emax}
  (s0 : state (FloatNum prec emax)) inputs cs i :
  (2 <= prec)%Z -> wf s0 -> fresh s0 -> eps_ok (epsilon s0) -> dep_ok prec emax (depression_constant s0) ->
  i < size (batch_shape s0) ->
  Forall (Forall call_wf) inputs -> Forall (Forall plain_none) inputs -> Forall call_wf cs ->
  Forall (fun e => halted (run s0 e) i = Some true /\ is_ok (reset_batches (run s0 e)) = true) inputs ->
  agree i (run s0 (stream inputs ++ cs)) (run s0 cs).
Proof.
  intros H2 W F He Hd Li Cw Pn Cc Hal. assert (P := Samples.fresh_wf_pending _ F). rewrite run_app.
  assert (Cs : Forall call_wf (stream inputs)) by now apply stream_wf.
  destruct (run_wf s0 _ W P Cs) as [W' P']. apply run_agree; auto.
  - apply stream_agrees; auto using fresh_nones, same_frame_refl, agree_refl.
    intros pre post E. rewrite E in Cs. apply Forall_app in Cs as [Cs _]. now apply clears_float.
  - clear. induction cs; constructor; auto using agree_call_refl.
Qed.
Print Assumptions C101_float_one_input_after_another.

(** float32: element 0 halts at once, its place is used a second time, and then element 1 gets NaN. *)
Definition kind_of {N} (c : call N) : nat := match c with CCache _ _ => 1 | CIter _ => 2 | CReset => 3 end.
Definition shared32 : list (call N32) := step32 (f32 1 1) (f32 1 10) ++ CReset :: step32 (f32 1 2) nan32.
Example C101_float_case : let c := ctl32 (py_div 1 10) in
  wf c /\ fresh c /\ eps_ok (epsilon c) /\ dep_ok 24 128 (depression_constant c) /\ 1 < size (batch_shape c) /\
  Forall call_wf shared32 /\ Forall plain_none shared32 /\
  halted (run c (step32 (f32 1 1) (f32 1 10))) 0 = Some true /\ is_ok (reset_batches (run c (step32 (f32 1 1) (f32 1 10)))) = true /\
  map kind_of (current 0 c [] shared32) = [1; 2] /\ map kind_of (current 1 c [] shared32) = [1; 2; 1; 2] /\
  bits (probabilities (run c shared32)) = [B2SF (f32 1 2); SpecFloat.S754_nan].
Proof.
  assert (Se : BuilderFacts.eps_sane (N := N32) (py_div 1 10)) by (split; vm_compute; reflexivity).
  destruct (ctl32_ok _ Se) as (W & F & P). cbv zeta. split; [exact W|]. split; [exact F|].
  split; [apply unit_by_computation; vm_compute; reflexivity|]. split; [split; [vm_compute; reflexivity|apply (leb_real (f_zero (prec := 24) (emax := 128))); vm_compute; reflexivity]|].
  split; [vm_compute; lia|]. split; [repeat constructor|]. split; [repeat constructor; discriminate|].
  do 4 (split; [vm_compute; reflexivity|]). vm_compute. reflexivity.
Qed.
