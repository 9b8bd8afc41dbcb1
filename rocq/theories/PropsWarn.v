(** * C104: the warning about overwritten accumulators. Vocabulary: WarnSpec.v, BuilderSpec.v. *)
From Coq Require Import QArith Qcanon Lia.
From Verif Require Import Base PyTree Tensor Num Utils States Controller Builder Wf Spec History BuilderSpec StateSpec OrderSpec Warnings WarnSpec.
From Verif Require Import BaseFacts HistoryFacts BuilderFacts StateFacts Samples PropsOrder.
Close Scope Qc_scope. Close Scope Q_scope. Open Scope string_scope. Open Scope list_scope. Open Scope nat_scope.

Section Warn.
  Context {N : numsys}.
  Notation st := (state N).
  Lemma show_result (s : st) c : snd (apply_wcall WShow s c) = of_res (apply_bcall s c).
  Proof. destruct c; cbn; try reflexivity. unfold define_by_shape_w. now destruct (dmem _ _). Qed.
  Lemma show_after (s : st) c : wafter WShow s c = bafter s c.
  Proof. unfold wafter, bafter. rewrite show_result. now destruct (apply_bcall s c). Qed.
  Lemma show_run (s : st) cs : wrun WShow s cs = brun s cs.
  Proof. revert s. induction cs as [|c cs IH]; intros s; [reflexivity|]. cbn. rewrite show_after. apply IH. Qed.
  Lemma brun_snoc (s : st) cs c : brun s (cs ++ [c]) = bafter (brun s cs) c. Proof. unfold brun. now rewrite fold_left_app. Qed.

  Lemma dmem_after (s : st) c k : proper s ->
    dmem k (defaults (bafter s c)) = true <->
    (bname c = k /\ is_definition c /\ is_ok (apply_bcall s c) = true) \/ (dmem k (defaults s) = true /\ (c = BDelete k -> is_ok (apply_bcall s c) = false)).
  Proof.
    intros (P1 & P2 & P3). unfold bafter. destruct (apply_bcall s c) as [s'|e] eqn:E; cbn [is_ok].
    2:{ split; [intros H; right; auto|]. intros [(_ & _ & H)|[H _]]; [discriminate|exact H]. }
    assert (Def : forall t, s' = defined s (bname c) t -> is_definition c -> dmem k (defaults s') = true <->
      (bname c = k /\ is_definition c /\ true = true) \/ (dmem k (defaults s) = true /\ (c = BDelete k -> true = false))).
    { intros t -> D. cbn [defaults defined]. unfold dmem. destruct (String.eqb_spec (bname c) k) as [->|Ne].
      - rewrite dget_dset_eq. tauto.
      - rewrite dget_dset_neq by congruence. split; [intros H; right; split; [exact H|intros ->; now destruct (D k)]|]. intros [[H _]|[H _]]; [contradiction|exact H]. }
    destruct c as [n t|n sh d f|n]; cbn [apply_bcall bname] in *.
    - apply define_ok_iff in E as [_ E]. apply (Def t E). discriminate.
    - apply define_by_shape_ok_iff in E as (t & _ & E). apply define_ok_iff in E as [_ E]. apply (Def t E). discriminate.
    - apply delete_ok_iff in E as (_ & _ & _ & ->). cbn [defaults removed]. unfold dmem. rewrite dget_ddel by assumption.
      destruct (String.eqb_spec k n) as [->|Ne].
      + split; [discriminate|]. intros [(_ & D & _)|[_ H]]; [now destruct (D n)|]. now specialize (H eq_refl).
      + split; [intros H; right; split; [exact H|congruence]|]. intros [(E & _)|[H _]]; [congruence|exact H].
  Qed.
  Lemma in_force_iff (s : st) cs k : proper s -> dmem k (defaults s) = false -> dmem k (defaults (brun s cs)) = true <-> in_force s cs k.
  Proof.
    intros P F. induction cs as [|c cs IH] using rev_ind.
    - cbn [brun fold_left]. rewrite F. split; [discriminate|]. intros (cs1 & d & cs2 & E & _). now destruct cs1.
    - rewrite brun_snoc, dmem_after, IH by (now apply brun_proper). split.
      + intros [(A & B & C)|[(cs1 & d & cs2 & -> & A & B & C & D) G]].
        * exists cs, c, []. repeat split; auto. intros [|? ?] ? X; discriminate.
        * exists cs1, d, (cs2 ++ [c]). rewrite <- app_assoc. repeat split; auto. intros cs3 cs4 X.
          destruct cs4 as [|y cs4 _] using rev_ind.
          -- apply app_inj_tail in X as [<- ->]. apply G. reflexivity.
          -- rewrite app_comm_cons, app_assoc in X. apply app_inj_tail in X as [X _]. eapply D, X.
      + intros (cs1 & d & cs2 & E & A & B & C & D). destruct cs2 as [|y cs2 _] using rev_ind.
        * apply app_inj_tail in E as [-> ->]. left. auto.
        * rewrite app_comm_cons, app_assoc in E. apply app_inj_tail in E as [-> ->]. right. split.
          -- exists cs1, d, cs2. repeat split; auto. intros cs3 cs4 ->. apply (D cs3 (cs4 ++ [y])). now rewrite <- app_assoc.
          -- intros ->. apply (D cs2 []). reflexivity.
  Qed.
End Warn.

(** The exact rule. On a builder that knows no definition of [k] (a new builder knows none), after any calls: a call about [k] shows the
    warning, once, if it is a definition by shape and a definition of [k] is in force; otherwise it shows nothing. Warnings change nothing else. *)
Theorem C104_warns_partial {N} (s : state N) cs c : proper s -> dmem (bname c) (defaults s) = false ->
  wrun WShow s cs = brun s cs /\
  snd (apply_wcall WShow (brun s cs) c) = of_res (apply_bcall (brun s cs) c) /\
  (by_shape c -> in_force s cs (bname c) -> shown WShow (brun s cs) c = ["Accumulator and defaults are being overwritten"]) /\
  (~ (by_shape c /\ in_force s cs (bname c)) -> shown WShow (brun s cs) c = []).
Proof.
  intros P F. split; [apply show_run|]. split; [apply show_result|]. pose proof (in_force_iff s cs (bname c) P F) as I.
  split.
  - intros (n & sh & d & f & ->) H. apply I in H. unfold shown. cbn [apply_wcall bname] in *. unfold define_by_shape_w. now rewrite H.
  - intros H. unfold shown. destruct c as [n t|n sh d f|n]; try reflexivity. cbn [apply_wcall bname] in *. unfold define_by_shape_w.
    destruct (dmem n (defaults (brun s cs))); [|reflexivity]. destruct H. split; [now exists n, sh, d, f|now apply I].
Qed.
Print Assumptions C104_warns_partial.

(** With warnings turned into errors: a definition by shape of a name in force raises the warning whatever its other arguments are, all other
    calls are as before; so no sequence of definitions by shape replaces a definition. *)
Theorem C104_warnings_as_errors {N} (s : state N) cs c :
  snd (apply_wcall WError s c) = match shown WShow s c with [] => of_res (apply_bcall s c) | _ => WRaisedWarning end /\
  (Forall by_shape cs -> forall k t, dget k (defaults s) = Some t -> dget k (defaults (wrun WError s cs)) = Some t).
Proof.
  split.
  - unfold shown. destruct c as [n t|n sh d f|n]; try reflexivity. cbn [apply_wcall]. unfold define_by_shape_w. now destruct (dmem _ _).
  - revert s. induction cs as [|x cs IH]; intros s B k t H; [exact H|]. cbn [wrun fold_left]. inversion B as [|? ? Bx Bs]; subst. apply IH; [exact Bs|].
    destruct Bx as (n & sh & d & f & ->). unfold wafter. cbn [apply_wcall]. unfold define_by_shape_w.
    destruct (dmem n (defaults s)) eqn:M; [exact H|]. cbn [snd]. destruct (define_by_shape s n sh d f) as [s'|e] eqn:E; [|exact H]. cbn [of_res].
    apply define_by_shape_ok_iff in E as (t' & _ & E). apply define_ok_iff in E as [_ ->]. cbn [defaults defined].
    rewrite dget_dset_neq; [exact H|]. intros ->. unfold dmem in M. now rewrite H in M.
Qed.
Print Assumptions C104_warnings_as_errors.
(** A program that shows no warning does the same when warnings are errors. *)
Theorem C104_silent_programs_are_not_affected {N} (s : state N) cs :
  (forall cs1 c cs2, cs = cs1 ++ c :: cs2 -> shown WShow (brun s cs1) c = []) -> wrun WError s cs = brun s cs.
Proof.
  revert s. induction cs as [|c cs IH]; intros s H; [reflexivity|]. cbn [wrun fold_left brun].
  assert (E : wafter WError s c = bafter s c).
  { unfold wafter. destruct (C104_warnings_as_errors s [] c) as [-> _]. pose proof (H [] c cs eq_refl) as X. cbn in X. rewrite X. unfold bafter. now destruct (apply_bcall s c). }
  rewrite E. apply IH. intros cs1 x cs2 ->. apply (H (c :: cs1) x cs2). reflexivity.
Qed.
Print Assumptions C104_silent_programs_are_not_affected.

(** The full claim, a call warns exactly if it overwrites a definition, is false both ways: a direct definition overwrites without a warning, and
    a definition by shape that is refused (here for its batch shape) has already announced that it overwrites. *)
Definition with_x : state QcNum := brun (core2 (q 1 1)) [BDirect "x" (row (q 1 1) (q 2 1))].
Definition silent_overwrite : bcall QcNum := BDirect "x" (row (q 3 1) (q 4 1)).
Definition false_alarm : bcall QcNum := BShape (N := QcNum) "x" (int_list [3]%Z) DF32 (q 0 1).
Theorem C104_refuted :
  overwrites WShow with_x silent_overwrite /\ shown WShow with_x silent_overwrite = [] /\
  shown WShow with_x false_alarm <> [] /\ ~ overwrites WShow with_x false_alarm /\ apply_bcall with_x false_alarm = Err ValueError.
Proof.
  split.
  { exists (row (q 1 1) (q 2 1)), (row (q 3 1) (q 4 1)), (bafter with_x silent_overwrite). split; [reflexivity|]. split; [reflexivity|]. split; [reflexivity|].
    intros E. apply (f_equal (fun t : tree (array QcNum) => match t with Leaf a => this (nth 0 (data (a_ten a)) (q 0 1) : Qc) | _ => 0%Q end)) in E. vm_compute in E. discriminate. }
  split; [reflexivity|]. split; [discriminate|]. split; [|reflexivity].
  intros (t & t' & s' & _ & H & _). change (snd (apply_wcall WShow with_x false_alarm)) with (@WRaised (state QcNum) ValueError) in H. discriminate.
Qed.
Print Assumptions C104_refuted.

(** "x" is defined, deleted and defined again; "y" is defined and deleted *)
Definition story : list (bcall QcNum) :=
  [BDirect "x" (row (q 1 1) (q 2 1)); BDelete "x"; BShape (N := QcNum) "y" (int_list [2]%Z) DF32 (q 0 1); BDelete "y"; BShape (N := QcNum) "x" (int_list [2; 3]%Z) DF32 (q 0 1); BDirect "x" bad_row].
Definition again (k : string) : bcall QcNum := BShape (N := QcNum) k (int_list [2]%Z) DF32 (q 5 1).
Example C104_case : proper (core2 (q 1 1)) /\ dmem "x" (defaults (core2 (q 1 1))) = false /\
  in_force (core2 (q 1 1)) story "x" /\ ~ in_force (core2 (q 1 1)) story "y" /\
  overwrites WShow (brun (core2 (q 1 1)) story) (again "x") /\
  shown WShow (brun (core2 (q 1 1)) story) (again "x") = ["Accumulator and defaults are being overwritten"] /\
  shown WShow (brun (core2 (q 1 1)) story) (again "y") = [] /\ Forall by_shape [again "x"; again "y"] /\
  dkeys (defaults (wrun WError (core2 (q 1 1)) (story ++ [again "x"; again "y"]))) = ["x"; "y"].
Proof.
  assert (P : proper (core2 (q 1 1))) by (repeat split; constructor). split; [exact P|]. split; [reflexivity|].
  split; [apply in_force_iff; [exact P|reflexivity|reflexivity]|].
  split; [intros H; apply in_force_iff in H; [vm_compute in H; discriminate|exact P|reflexivity]|].
  split.
  { eexists _, _, (bafter (brun (core2 (q 1 1)) story) (again "x")). split; [reflexivity|].
    assert (O : is_ok (apply_bcall (brun (core2 (q 1 1)) story) (again "x")) = true) by (vm_compute; reflexivity).
    split; [rewrite show_result; unfold bafter; destruct (apply_bcall _ _); [reflexivity|discriminate O]|]. split; [reflexivity|].
    intros E. apply (f_equal (fun t : tree (array QcNum) => match t with Leaf a => a_shape a | _ => [] end)) in E. cbn in E. discriminate. }
  split; [reflexivity|]. split; [reflexivity|]. split; [repeat constructor; unfold by_shape, again; eauto|]. vm_compute. reflexivity.
Qed.
