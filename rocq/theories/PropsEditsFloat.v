(** * C91 in IEEE-754 arithmetic: what a controller has computed can be put back into a fresh one. Vocabulary: EditSpec.v, FloatSpec.v. *)
From Coq Require Import ZArith Reals Lia Lra Permutation.
From Flocq Require Import Core BinarySingleNaN.
From Verif Require Import Base PyTree Tensor Num FloatNum FloatSpec Utils States Controller Builder Viewer Editor
  Wf Spec History ElementSpec ScalarSpec BuilderSpec ViewerSpec EditorSpec EditSpec Heap HeapSpec PoolSpec.
From Verif Require Import BaseFacts TensorFacts ControllerFacts IterateFacts ResetFacts HistoryFacts AgreeFacts ExactFacts StepFacts
  BuilderFacts ViewerFacts EditorFacts StateFacts ElementFacts FloatFacts FloatFacts2 FloatFacts3 PoolFacts.
From Verif Require Import PropsController PropsFloat PropsScalar PropsHeap PropsPool PropsPoolFloat PropsEdits.
Close Scope R_scope. Close Scope Z_scope. Open Scope string_scope. Open Scope list_scope. Open Scope nat_scope.

Section Formats.
  Context {prec emax : Z} {Hp : Prec_gt_0 prec} {Hm : Prec_lt_emax prec emax} (H2 : (2 <= prec)%Z).
  Notation N := (FloatNum prec emax).
  Notation bf := (binary_float prec emax).
  Lemma unit_in (x : bf) : funit x -> in_unit (N := N) x.
  Proof.
    intros [F [A B]]. split; cbn [v_ltb v_zero v_one FloatNum].
    - apply ltb_R_false; [exact F|reflexivity|]. cbn. lra.
    - apply ltb_R_false; [apply one_finite|exact F|]. rewrite one_R. lra.
  Qed.
  Lemma range_run (calls : list (call N)) : forall s0, wf s0 -> wf_pending s0 -> Forall call_wf calls -> Forall no_nan calls ->
    float_range s0 -> float_range (run s0 calls).
  Proof.
    induction calls as [|c calls IH]; intros s0 W P C Nn R; [exact R|].
    apply Forall_cons_iff in C as [C1 C2]. apply Forall_cons_iff in Nn as [N1 N2].
    change (float_range (run (after s0 c) calls)). unfold after. destruct (apply_call s0 c) as [s1|x] eqn:E; [|now apply IH].
    destruct (apply_call_wf s0 s1 c W P C1 E) as [W1 P1]. apply (IH s1 W1 P1 C2 N2). exact (float_call H2 s0 s1 c W P C1 N1 R E).
  Qed.
  (** The count stays a natural number, with resets too. *)
  Definition natural (x : bf) : Prop := exists k, (0 <= k <= 2 ^ prec)%Z /\ counts x k.
  Lemma natural_run thr dep es : forall S : stats N, natural (steps S) -> natural (steps (stats_run (N := N) thr dep S es)).
  Proof.
    assert (P2 : (0 < 2 ^ prec)%Z) by (apply Z.pow_pos_nonneg; lia).
    induction es as [|e es IH]; intros S H; [exact H|]. apply (IH (stats_event (N := N) thr dep S e)). destruct H as (k & K & C). destruct e as [v|]; cbn [stats_event stats_step stats_reset steps].
    - destruct (is_over thr S); [now exists k|]. exists (Z.min (k + 1) (2 ^ prec)). split; [lia|]. now apply count_step.
    - unfold switch. destruct (is_over thr S); cbn [v_mul v_zero v_one FloatNum].
      + destruct C as [F _]. destruct (mul_zero_r prec emax (steps S : bf) F) as [sg E]. exists 0%Z. split; [lia|]. change (counts (f_mul (steps S : bf) f_zero) 0). rewrite E. split; reflexivity.
      + exists k. split; [exact K|]. change (counts (f_mul (steps S : bf) f_one) k). now rewrite mul_one_r.
  Qed.
  Lemma natural_leb (x : bf) : natural x -> v_leb N (v_zero N) x = true.
  Proof.
    intros (k & K & F & E). cbn [v_leb v_zero FloatNum]. change (Bleb (f_zero : bf) x = true). rewrite Bleb_correct; [|reflexivity|exact F].
    rewrite E. apply Rle_bool_true. cbn. apply IZR_le. lia.
  Qed.
End Formats.

(** Every history without NaN among the halting values, with resets and calls that fail; the setters are called in any order. *)
Theorem C91_float_runs_can_be_restored (prec emax : Z) {Hp : Prec_gt_0 prec} {Hm : Prec_lt_emax prec emax}
  (s0 : state (FloatNum prec emax)) (calls : list (call (FloatNum prec emax))) cs :
  (2 <= prec)%Z -> wf s0 -> fresh s0 -> eps_ok (epsilon s0) -> dep_ok prec emax (depression_constant s0) ->
  Forall call_wf calls -> Forall no_nan calls -> has_cached_updates (run s0 calls) = false ->
  Permutation cs (checkpoint (run s0 calls)) ->
  editing (mkEd s0 "standard") cs = mkEd (run s0 calls) "standard".
Proof.
  intros H2 W F He Hd C Nn U Pm. assert (P := Samples.fresh_wf_pending _ F).
  destruct (run_wf s0 calls W P C) as [W' P']. assert (K := frame_kind _ _ (run_frame s0 calls W P C)).
  apply C91_checkpoints_can_be_restored; auto.
  assert (R0 : float_range s0).
  { constructor; auto; [intros i p; now apply (fresh_unit s0 F i)|]. intros i r Hr. destruct F as (_ & Fr & _). pose proof (Forall_nth _ _ _ _ Fr Hr) as X. cbv beta in X. subst r. split; [reflexivity|]. cbn. lra. }
  assert (R := range_run H2 calls s0 W P C Nn R0). apply float_range_iff in R as ([E1 E2] & _ & Rp & Rr). split.
  - eapply Forall_impl; [|exact Rp]. intros x. apply unit_in.
  - eapply Forall_impl; [|exact Rr]. intros x. apply unit_in.
  - apply Forall_forall. intros n Hn. apply natural_leb. apply In_nth_error in Hn as [i Hi].
    destruct (C64_every_element_runs_the_scalar_program s0 calls W F C) as [Sc _].
    assert (exists p r, element (run s0 calls) i p r n) as (p & r & El).
    { assert (I : i < length (a_data (iterations (run s0 calls)))) by (apply nth_error_Some; congruence).
      assert (Lp : length (a_data (probabilities (run s0 calls))) = length (a_data (iterations (run s0 calls)))).
      { assert (X := wf_i _ W'). assert (Y := wf_i_shape _ W'). rewrite (wf_batch_len _ W'). unfold awf, twf in X. unfold a_data. rewrite X. unfold batch_shape, a_shape in *. now rewrite Y. }
      destruct (nth_error_lt (a_data (probabilities (run s0 calls))) i) as [p Hpi]; [now rewrite Lp|].
      destruct (element_exists (run s0 calls) i p W' Hpi) as (r & n0 & El). exists p, r. destruct El as (A & B & D). split; [exact A|]. split; [exact B|exact Hi]. }
    specialize (Sc i p r n El). apply (f_equal steps) in Sc. cbn [steps] in Sc. rewrite Sc. apply natural_run; [exact H2|].
    exists 0%Z. split; [split; [lia|]; apply Z.pow_nonneg; lia|]. split; reflexivity.
  - cbn [s_leb s_zero s_one FloatNum]. assert (X := one_finite 53 1024). assert (O := one_R 53 1024). change (f_one : pyfloat) with (Bone : pyfloat) in X, O. destruct E2 as [E2 E3].
    split; (rewrite Bleb_correct; [|first [reflexivity|exact E1|exact X]|first [reflexivity|exact E1|exact X]]); apply Rle_bool_true; [cbn; exact E2|rewrite O; exact E3].
  - intros k u t Hu _. left. apply dget_In in Hu.
    destruct (is_none u) eqn:X; [reflexivity|]. exfalso. assert (Y : existsb (fun kv => negb (is_none (snd kv))) (updates (run s0 calls)) = true).
    { apply existsb_exists. exists (k, u). cbn. now rewrite X. }
    unfold has_cached_updates in U. now rewrite U in Y.
Qed.
Print Assumptions C91_float_runs_can_be_restored.

(** Three iterations in float32 with a reset, restored into the fresh controller. *)
Definition calls91f : list (call N32) := firstn 4 calls32 ++ [CReset] ++ skipn 4 calls32.
Example C91_float_case :
  wf (ctl32 (py_div 1 10)) /\ fresh (ctl32 (py_div 1 10)) /\ eps_ok (epsilon (ctl32 (py_div 1 10))) /\ dep_ok 24 128 (depression_constant (ctl32 (py_div 1 10))) /\
  Forall call_wf calls91f /\ Forall no_nan calls91f /\ has_cached_updates (run (ctl32 (py_div 1 10)) calls91f) = false /\
  length (returned (ctl32 (py_div 1 10)) calls91f) = 7 /\ length (checkpoint (run (ctl32 (py_div 1 10)) calls91f)) = 7 /\
  bits (iterations (run (ctl32 (py_div 1 10)) calls91f)) = [B2SF (f32 3 1); B2SF (f32 1 1)].
Proof.
  assert (Se : eps_sane (N := N32) (py_div 1 10)) by (split; vm_compute; reflexivity).
  destruct (ctl32_ok _ Se) as (W & F & P). split; [exact W|]. split; [exact F|].
  split; [apply unit_by_computation; vm_compute; reflexivity|].
  split; [split; [vm_compute; reflexivity|apply (leb_real (f_zero (prec := 24) (emax := 128))); vm_compute; reflexivity]|].
  split; [repeat constructor|]. split; [repeat constructor; vm_compute; reflexivity|]. repeat split; vm_compute; reflexivity.
Qed.
