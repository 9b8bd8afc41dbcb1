(** * C107 in IEEE-754 arithmetic. Vocabulary: PropsFloat.v, FloatSpec.v, ElementSpec.v, History.v. *)
From Coq Require Import ZArith Reals Lia Lra.
From Flocq Require Import Core BinarySingleNaN.
From Verif Require Import Base PyTree Tensor Num FloatNum FloatSpec Utils States Controller Builder Editor Wf Spec History ElementSpec.
From Verif Require Import BaseFacts ControllerFacts IterateFacts HistoryFacts ExactFacts BuilderFacts EditorFacts ElementFacts FloatFacts PropsController PropsFloat.
Close Scope R_scope. Close Scope Z_scope. Open Scope string_scope. Open Scope list_scope. Open Scope nat_scope.

(** An element that is still running when epsilon is raised, and that is above the new threshold (as it is computed: [1 - x] in Python floats, converted to
    the format of the arrays), is halted from then on; nothing short of a reset changes its residual, its count or its accumulators. *)
Theorem C107_float_refuted (prec emax : Z) {Hp : Prec_gt_0 prec} {Hm : Prec_lt_emax prec emax}
  (s0 : state (FloatNum prec emax)) cs i p (x : pyfloat) :
  (2 <= prec)%Z -> wf s0 -> wf_pending s0 -> Forall call_wf cs -> Forall no_nan cs ->
  eps_ok (epsilon s0) -> dep_ok prec emax (depression_constant s0) -> probabilities_ok s0 ->
  (probabilities (run s0 cs)).[i] = Some p -> halted (run s0 cs) i = Some false ->
  eps_ok x -> Bltb (f_of_py (Bminus mode_NE Bone x)) (p : binary_float prec emax) = true ->
  exists c, set_epsilon (mkEd (run s0 cs) "standard") (x : scl (FloatNum prec emax)) = Ok (mkEd c "standard") /\
    (probabilities c).[i] = Some p /\ halted c i = Some true /\
    forall calls, Forall call_wf calls -> Forall no_nan calls -> Forall (fun c => c <> CReset) calls ->
      halted (run c calls) i = Some true /\ same_element i (run s0 cs) (run c calls).
Proof.
  intros H2 W P C Nn He Hd U Hpi _ Hx Above. destruct (run_wf s0 cs W P C) as [W' P']. pose proof (run_frame s0 cs W P C) as Fr.
  pose proof (run_unit H2 s0 He Hd W P U cs C Nn) as U'. destruct Hx as [Fx Rx].
  eexists. split.
  { apply (set_epsilon_char (mkEd (run s0 cs) "standard") (x : scl (FloatNum prec emax)) eq_refl).
    cbn [s_leb s_zero s_one FloatNum]. split.
    - rewrite Bleb_correct; auto. apply Rle_bool_true. exact (proj1 Rx).
    - rewrite Bleb_correct; [|exact Fx|apply is_finite_Bone]. rewrite Bone_correct. apply Rle_bool_true. exact (proj2 Rx). }
  cbv zeta. cbn [ed_state]. match goal with |- _ /\ halted ?y i = _ /\ _ => set (c := y) end.
  assert (Wc : wf c) by (destruct W'; split; auto). assert (Pc : wf_pending c) by exact P'.
  assert (Hh : halted c i = Some true).
  { unfold halted. rewrite (halted_get c i p Hpi). f_equal. exact Above. }
  assert (Dc : dep_ok prec emax (depression_constant c)) by (unfold c; cbn [depression_constant]; now rewrite (sf_dep _ _ Fr)).
  split; [exact Hpi|]. split; [exact Hh|]. intros calls F G R. split.
  - apply (C04_float_halting_is_permanent prec emax c calls i); auto. now split.
  - apply (C03_float_frozen_forever prec emax c calls i); auto. now split.
Qed.
Print Assumptions C107_float_refuted.

(** binary32, epsilon 1/10 raised to 1/2 with element 0 at 3/4 and element 1 at 1/4. After another iteration with halting probability 1 the cumulative
    probabilities are both reported as 1, with residual 0 for element 0. *)
Example C107_float_case : let s := run (ctl32 (py_div 1 10)) (step32 (f32 3 4) (f32 1 4)) in
  wf (ctl32 (py_div 1 10)) /\ wf_pending (ctl32 (py_div 1 10)) /\ eps_ok (py_div 1 10) /\ eps_ok (py_div 1 2) /\
  probabilities_ok (ctl32 (py_div 1 10)) /\ Forall call_wf (step32 (f32 3 4) (f32 1 4)) /\ Forall no_nan (step32 (f32 3 4) (f32 1 4)) /\
  halted s 0 = Some false /\ Bltb (f_of_py (Bminus mode_NE Bone (py_div 1 2))) (f32 3 4) = true /\
  bits (probabilities s) = [B2SF (f32 3 4); B2SF (f32 1 4)] /\
  match set_epsilon (mkEd s "standard") (py_div 1 2 : scl N32) with
  | Ok e => let c := run (ed_state e) (step32 (f32 1 1) (f32 1 1)) in
      bits (probabilities c) = [B2SF (f32 1 1); B2SF (f32 1 1)] /\ bits (residuals c) = [B2SF (f32 0 1); B2SF (f32 3 4)]
  | Err _ => False
  end.
Proof.
  assert (Se : eps_sane (N := N32) (py_div 1 10)) by (split; vm_compute; reflexivity).
  destruct (ctl32_ok _ Se) as (W & F & P). split; [exact W|]. split; [exact P|].
  split; [apply unit_by_computation; vm_compute; reflexivity|]. split; [apply unit_by_computation; vm_compute; reflexivity|].
  split; [now apply fresh_unit|]. split; [repeat constructor|]. split; [repeat constructor; vm_compute; reflexivity|].
  split; [vm_compute; reflexivity|]. split; [vm_compute; reflexivity|]. split; [vm_compute; reflexivity|]. vm_compute. split; reflexivity.
Qed.
