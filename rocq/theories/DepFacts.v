(** * The depression constant over whole histories. *)
From Coq Require Import QArith Qcanon.
From Verif Require Import Base PyTree Tensor Num Utils States Controller Wf Spec History ElementSpec.
From Verif Require Import BaseFacts PyTreeFacts TensorFacts ControllerFacts IterateFacts ResetFacts HistoryFacts
  AgreeFacts QcFacts SpecFacts GravesFacts ExactFacts ExactFacts2 StepFacts.
Close Scope Qc_scope. Open Scope nat_scope.

Lemma cache_dep {N} (s : state N) d name item :
  cache_update (with_dep s d) name item = res_map (fun s' => with_dep s' d) (cache_update s name item).
Proof.
  rewrite !cache_update_char. cbn [updates with_dep]. destruct (dget name (updates s)) as [u|]; [|reflexivity].
  destruct (is_none u); reflexivity.
Qed.
Lemma reset_loop_dep {N} (s : state N) d m names out :
  reset_loop (with_dep s d) m names out = reset_loop s m names out.
Proof.
  revert out. induction names as [|n names IH]; intros out; cbn [reset_loop]; [reflexivity|].
  cbn [accumulators defaults with_dep].
  destruct (dlookup n (accumulators s)); cbn [bind]; [|reflexivity].
  destruct (dlookup n (defaults s)); cbn [bind]; [|reflexivity].
  destruct (merge_pytrees _ _ _); cbn [bind]; [|reflexivity]. apply IH.
Qed.
Lemma reset_dep {N} (s : state N) d :
  reset_batches (with_dep s d) = res_map (fun s' => with_dep s' d) (reset_batches s).
Proof.
  unfold reset_batches.
  change (has_cached_updates (with_dep s d)) with (has_cached_updates s).
  change (halted_batches (with_dep s d)) with (halted_batches s).
  cbn [iterations probabilities residuals accumulators with_dep].
  destruct (guard _ _); cbn [bind res_map]; [|reflexivity].
  destruct (a_mul_bool (iterations s) _); cbn [bind res_map]; [|reflexivity].
  destruct (a_mul_bool (probabilities s) _); cbn [bind res_map]; [|reflexivity].
  destruct (a_mul_bool (residuals s) _); cbn [bind res_map]; [|reflexivity].
  rewrite reset_loop_dep. destruct (reset_loop _ _ _ _); reflexivity.
Qed.


Lemma after_dep_const {N} (s : state N) c : depression_constant (after s c) = depression_constant s.
Proof.
  unfold after. destruct (apply_call s c) as [s'|e] eqn:E; [|reflexivity].
  destruct c as [name item|h|]; cbn [apply_call] in E.
  - rewrite cache_update_char in E. destruct (dget name (updates s)); [|discriminate].
    destruct (is_none _); [|discriminate]. now injection E as <-.
  - unfold iterate_act in E. apply bind_ok in E as (? & _ & E). apply bind_ok in E as (((? & ?) & ?) & _ & E).
    apply bind_ok in E as ((? & ?) & _ & E). apply bind_ok in E as (? & _ & E). now injection E as <-.
  - unfold reset_batches in E. apply bind_ok in E as (? & _ & E). apply bind_ok in E as (? & _ & E).
    apply bind_ok in E as (? & _ & E). apply bind_ok in E as (? & _ & E). apply bind_ok in E as (? & _ & E).
    now injection E as <-.
Qed.
Lemma after_scales (s : st) c :
  (0 <= depression_constant s)%Qc -> (depression_constant s <= 1)%Qc -> unit_range c ->
  after (with_dep s 1%Qc) (scale_call (depression_constant s) c) = with_dep (after s c) 1%Qc.
Proof.
  intros H0 H1 Hc. unfold after. destruct c as [name item|h|]; cbn [scale_call apply_call unit_range] in *.
  - rewrite cache_dep. destruct (cache_update s name item); reflexivity.
  - rewrite depression_scales by assumption. destruct (iterate_act s h); reflexivity.
  - rewrite reset_dep. destruct (reset_batches s); reflexivity.
Qed.
Theorem run_scales (s : st) cs :
  (0 <= depression_constant s)%Qc -> (depression_constant s <= 1)%Qc -> Forall unit_range cs ->
  run (with_dep s 1%Qc) (map (scale_call (depression_constant s)) cs) = with_dep (run s cs) 1%Qc.
Proof.
  intros H0 H1 H. revert s H0 H1. induction H as [|c cs Hc _ IH]; intros s H0 H1; [reflexivity|].
  cbn [map]. rewrite !run_cons, after_scales by assumption.
  rewrite <- (after_dep_const s c). apply IH; now rewrite after_dep_const.
Qed.
