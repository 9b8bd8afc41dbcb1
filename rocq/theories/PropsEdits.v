(** * Edits do not depend on each other; checkpoints can be restored (C91).

    Vocabulary: EditorSpec.v ([edit], [edit_wf], [edit_none_safe], [same_kind]), EditSpec.v
    ([target_of], [holds], [same_at], [editing], [accepted], [raised], [checkpoint],
    [restorable]). *)
From Coq Require Import QArith Qcanon.
From Coq Require Import Sorting.Permutation.
From Verif Require Import Base PyTree Tensor Num Utils States Controller Builder Editor Wf Spec History ElementSpec BuilderSpec
  EditorSpec EditSpec.
From Verif Require Import BaseFacts ControllerFacts HistoryFacts QcFacts EditorFacts EditFacts PoolFacts Samples.
From Verif Require Import PropsController PropsEditor.
Close Scope Qc_scope. Close Scope Q_scope. Open Scope string_scope. Open Scope list_scope. Open Scope nat_scope.

(** Whether a setter call returns, and what it raises, does not depend on the setter calls before. *)
Theorem C91_verdict_is_independent {N} (s : state N) cs c :
  wf s -> wf_pending s -> Forall edit_wf cs -> Forall (edit_none_safe s) cs ->
  raised (editing (mkEd s "standard") cs) c = raised (mkEd s "standard") c.
Proof. intros W P A B. apply editing_raised; [exact (conj W P)|]. apply Forall_forall. intros x H. rewrite Forall_forall in A, B. split; auto. Qed.
Print Assumptions C91_verdict_is_independent.
(** The last accepted call about something decides, *)
Theorem C91_last_edit_wins {N} (s : state N) cs1 c cs2 :
  wf s -> wf_pending s -> Forall edit_wf (cs1 ++ c :: cs2) -> Forall (edit_none_safe s) (cs1 ++ c :: cs2) ->
  accepted (mkEd s "standard") c ->
  (forall c', In c' cs2 -> target_of c' = target_of c -> ~ accepted (mkEd s "standard") c') ->
  holds (ed_state (editing (mkEd s "standard") (cs1 ++ c :: cs2))) c.
Proof.
  intros W P A B Ac H. apply editing_holds; auto; [exact (conj W P)| |now apply Forall_forall].
  apply Forall_forall. intros x Hx. rewrite Forall_forall in A, B. split; auto.
Qed.
Print Assumptions C91_last_edit_wins.
(** and what no accepted call was about is as before: in particular the depression constant, the
    error mode and the names of the accumulators, which no call is about. *)
Theorem C91_nothing_else_changes {N} (s : state N) cs :
  wf s -> wf_pending s -> Forall edit_wf cs -> Forall (edit_none_safe s) cs ->
  let s' := ed_state (editing (mkEd s "standard") cs) in
  (forall t, (forall c, In c cs -> target_of c = t -> ~ accepted (mkEd s "standard") c) -> same_at t s s') /\
  depression_constant s' = depression_constant s /\ error_mode s' = error_mode s /\
  dkeys (accumulators s') = dkeys (accumulators s) /\ dkeys (defaults s') = dkeys (defaults s) /\ dkeys (updates s') = dkeys (updates s).
Proof.
  intros W P A B. cbv zeta. assert (F : Forall (fair s) cs).
  { apply Forall_forall. intros x H. rewrite Forall_forall in A, B. split; auto. }
  split.
  - intros t H. apply editing_same; [exact (conj W P)|exact F|now apply Forall_forall].
  - destruct (editing_good s cs (conj W P) F) as (s' & E & _ & K). unfold m_standard in E. rewrite E. cbn [ed_state].
    repeat split; apply K.
Qed.
Print Assumptions C91_nothing_else_changes.
(** The order of calls about different things does not matter. *)
Theorem C91_order_does_not_matter {N} (s : state N) cs1 a b cs2 :
  wf s -> wf_pending s -> Forall edit_wf (cs1 ++ a :: b :: cs2) -> Forall (edit_none_safe s) (cs1 ++ a :: b :: cs2) ->
  target_of a <> target_of b ->
  editing (mkEd s "standard") (cs1 ++ a :: b :: cs2) = editing (mkEd s "standard") (cs1 ++ b :: a :: cs2).
Proof.
  intros W P A B T. apply editing_swap; auto; [exact (conj W P)|].
  apply Forall_forall. intros x H. rewrite Forall_forall in A, B. split; auto.
Qed.
Print Assumptions C91_order_does_not_matter.
(** Setting something to the value it has changes nothing (or is refused). *)
Theorem C91_rewriting_changes_nothing {N} (e : editor N) c : wf (ed_state e) -> holds (ed_state e) c -> after_edit e c = e.
Proof. exact (rewriting e c). Qed.
Print Assumptions C91_rewriting_changes_nothing.
(** An editor on a controller of the same kind can restore every state whose numbers are in range:
    one setter call for each thing that can be set, in any order. *)
Theorem C91_checkpoints_can_be_restored {N} (s saved : state N) cs :
  wf s -> wf_pending s -> wf saved -> wf_pending saved -> same_kind s saved -> restorable saved ->
  Permutation cs (checkpoint saved) ->
  editing (mkEd s "standard") cs = mkEd saved "standard".
Proof. intros W P W' P' K R Pm. apply restored; auto; split; auto. Qed.
Print Assumptions C91_checkpoints_can_be_restored.
(** In particular, in exact arithmetic, everything a controller computes from a fresh one can be put
    back into the fresh one, as long as no update is pending. *)
Theorem C91_runs_can_be_restored (s0 : st) (calls : list (call QcNum)) cs :
  wf s0 -> fresh s0 -> in_range s0 -> Forall call_wf calls -> has_cached_updates (run s0 calls) = false ->
  Permutation cs (checkpoint (run s0 calls)) ->
  editing (mkEd s0 "standard") cs = mkEd (run s0 calls) "standard".
Proof.
  intros W F R C U Pm. assert (P := Samples.fresh_wf_pending _ F).
  destruct (run_wf s0 calls W P C) as [W' P']. assert (K := frame_kind _ _ (run_frame s0 calls W P C)).
  apply C91_checkpoints_can_be_restored; auto.
  assert (R' : in_range (run s0 calls)).
  { clear - W P R C. revert s0 W P R C. induction calls as [|c calls IH]; intros s0 W P R C; [exact R|].
    apply Forall_cons_iff in C as [C1 C2]. change (in_range (run (after s0 c) calls)). unfold after.
    destruct (apply_call s0 c) as [s1|x] eqn:E; [|now apply IH].
    destruct (apply_call_wf s0 s1 c W P C1 E) as [W1 P1]. apply (IH s1 W1 P1); [exact (call_range s0 s1 c W P C1 R E)|exact C2]. }
  apply in_range_iff in R'. destruct R' as (E & D & Rp & Rr & Ri). split.
  - eapply Forall_impl; [|exact Rp]. intros x Hx. now apply in_unit_iff.
  - eapply Forall_impl; [|exact Rr]. intros x Hx. now apply in_unit_iff.
  - eapply Forall_impl; [|exact Ri]. intros x Hx. now apply Qcleb_le.
  - split; now apply Qcleb_le.
  - intros k u t Hu _. left. apply dget_In in Hu.
    destruct (is_none u) eqn:X; [reflexivity|]. exfalso. assert (Y : existsb (fun kv => negb (is_none (snd kv))) (updates (run s0 calls)) = true).
    { apply existsb_exists. exists (k, u). cbn. now rewrite X. }
    unfold has_cached_updates in U. now rewrite U in Y.
Qed.
Print Assumptions C91_runs_can_be_restored.

(** A controller that has run for two iterations, restored into the fresh controller; and edits, some
    of them refused. *)
Definition calls91 : list (call QcNum) :=
  [CCache "x" (u_x 1 2 3 4); CCache "y" (u_y 1 2 3 4); CIter (hp (q 1 1) (q 1 2));
   CCache "y" (u_y 5 6 7 8); CCache "x" (u_x 1 1 1 1); CIter (hp (q 1 3) (q 1 5))].
Definition edits91 : list (edit QcNum) :=
  [EProbabilities (hp (q 1 3) (q 1 2)); EAccumulator "x" (u_x 9 9 9 9); EProbabilities (hp (q 3 1) (q 1 2));
   EAccumulator "nope" (u_x 9 9 9 9); EUpdates "x" (u_x 1 2 3 4); EEpsilon (N := QcNum) (q 1 4); EAccumulator "x" (u_x 8 8 8 8)].
Lemma edits91_ok : Forall edit_wf edits91 /\ Forall (edit_none_safe ctl2) edits91.
Proof.
  split; [repeat constructor|].
  assert (X : dget "x" (accumulators ctl2) = Some t_x) by reflexivity.
  repeat constructor; cbn [edit_none_safe]; intros t Ht _.
  - rewrite X in Ht. injection Ht as <-. reflexivity.
  - discriminate Ht.
  - rewrite X in Ht. injection Ht as <-. reflexivity.
Qed.
Example C91_case :
  wf ctl2 /\ fresh ctl2 /\ in_range ctl2 /\ Forall call_wf calls91 /\
  length (returned ctl2 calls91) = 6 /\ has_cached_updates (run ctl2 calls91) = false /\
  length (checkpoint (run ctl2 calls91)) = 10 /\
  Forall edit_wf edits91 /\ Forall (edit_none_safe ctl2) edits91 /\
  map (raised (mkEd ctl2 "standard")) edits91 =
    [None; None; Some JaxRuntimeError; Some JaxRuntimeError; None; None; None].
Proof.
  destruct ctl2_ok as (W & F). repeat (split; [first [exact W | exact F | exact ctl2_in_range | apply edits91_ok | repeat constructor; fail | vm]|]).
  vm.
Qed.
