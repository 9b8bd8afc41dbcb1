(** * Everything a user can get hold of through the API is consistent (C90).

    Vocabulary: PoolSpec.v ([consistent], [hcall_ok], [hcall_ranged], [cannot_fail]), HeapSpec.v
    (histories of calls on a pool of objects), ThreadSpec.v, EditorSpec.v ([in_range]). *)
From Coq Require Import QArith Qcanon.
From Verif Require Import Base PyTree Tensor Num Utils States Controller Builder Viewer Editor Wf History
  ViewerSpec EditorSpec BuilderSpec Heap HeapSpec ThreadSpec PoolSpec.
From Verif Require Import BaseFacts HeapFacts HeapFacts2 HeapFacts3 HeapFacts4 QcFacts PoolFacts Samples.
From Verif Require Import PropsHeap PropsThreads.
Close Scope Qc_scope. Close Scope Q_scope. Open Scope string_scope. Open Scope list_scope. Open Scope nat_scope.

(** A user starts with nothing, on an empty heap. Whatever is called on whatever, in whatever
    order, with however many failures: every builder, controller, viewer, editor and saved state
    they hold is consistent. *)
Theorem C90_everything_is_consistent {N} planned (cs : list (hcall N)) es p h :
  Forall (hcall_ok planned) cs -> heap_run [] [] cs = (es, p, h) ->
  Forall (fun l => exists v, view h l = Some v /\ consistent planned v) p.
Proof.
  intros O H. destruct (pure_run [] cs) as [es' vs'] eqn:E.
  destruct (C41_sharing_is_invisible [] [] [] cs es p h es' vs' (Forall2_nil _) H E) as [_ F].
  assert (C := run_consistent planned [] cs es' vs' (Forall_nil _) O E).
  clear - F C. induction F as [|l v p vs Hv _ IH]; constructor; apply Forall_cons_iff in C as [C1 C2]; eauto.
Qed.
Print Assumptions C90_everything_is_consistent.
(** The same for threads that share their objects, start calls at any time, overlap them and break
    them off. *)
Theorem C90_consistent_with_threads {N} planned (c0 c : config N) (vs0 : list (pyval N)) :
  begins c0 vs0 -> Forall (consistent planned) vs0 -> steps c0 c -> Forall (hcall_ok planned) (map fst (c_ended c)) ->
  Forall (fun l => exists v, view (c_heap c) l = Some v /\ consistent planned v) (c_pool c).
Proof.
  intros B C S O. destruct (C88_as_if_in_turn c0 c vs0 B S) as (vs & E & F).
  assert (C' := run_consistent planned vs0 _ _ vs C O E).
  clear - F C'. induction F as [|l v p vs Hv _ IH]; constructor; apply Forall_cons_iff in C' as [C1 C2]; eauto.
Qed.
Print Assumptions C90_consistent_with_threads.
(** In exact arithmetic, moreover, every epsilon, probability and residual anybody ever sees is
    between zero and one, and no iteration count is negative. *)
Theorem C90_everything_is_in_range planned (cs : list (hcall QcNum)) es p h :
  Forall (hcall_ok planned) cs -> Forall hcall_ranged cs -> heap_run [] [] cs = (es, p, h) ->
  Forall (fun l => exists v, view h l = Some v /\ in_range (inside v)) p.
Proof.
  intros O Q H. destruct (pure_run [] cs) as [es' vs'] eqn:E.
  destruct (C41_sharing_is_invisible [] [] [] cs es p h es' vs' (Forall2_nil _) H E) as [_ F].
  assert (C := run_in_range planned [] cs es' vs' (Forall_nil _) O Q E).
  clear - F C. induction F as [|l v p vs Hv _ IH]; constructor; apply Forall_cons_iff in C as [[_ C1] C2]; eauto.
Qed.
Print Assumptions C90_everything_is_in_range.
(** On all these objects, building, viewing, saving, loading, opening an editor, looking at the
    halted or the unhalted part and passing through a pytree never raise. *)
Theorem C90_cannot_fail {N} planned (cs : list (hcall N)) es p h m i v l :
  Forall (hcall_ok planned) cs -> heap_run [] [] cs = (es, p, h) ->
  nth_error p i = Some l -> view h l = Some v -> cannot_fail m v ->
  exists l' h' v', heap_do p (On i m) h = (Ok l', h') /\ view h' l' = Some v'.
Proof.
  intros O H Hi Hv M. destruct (pure_run [] cs) as [es' vs] eqn:E.
  destruct (C41_sharing_is_invisible [] [] [] cs es p h es' vs (Forall2_nil _) H E) as [_ F].
  assert (C := run_consistent planned [] cs es' vs (Forall_nil _) O E).
  assert (Hn : nth_error vs i = Some v).
  { clear - F Hi Hv. revert i Hi. induction F as [|x y p vs Hxy _ IH]; intros [|i] Hi; cbn [nth_error] in *; try discriminate; [congruence|auto]. }
  rewrite Forall_forall in C. destruct (call_cannot_fail planned m v (C v (nth_error_In _ _ Hn)) M) as [v' Hc].
  destruct (heap_do p (On i m) h) as [r h'] eqn:Eh.
  assert (R1 : heap_run p h [On i m] = ([outcome r], match r with Ok l => p ++ [l] | Err _ => p end, h')).
  { cbn [heap_run]. now rewrite Eh. }
  assert (R2 : pure_run vs [On i m] = ([None], vs ++ [v'])).
  { cbn [pure_run pure_do]. now rewrite Hn, Hc. }
  destruct (C41_sharing_is_invisible p h vs [On i m] _ _ _ _ _ F R1 R2) as [X F'].
  destruct r as [l'|e]; [|discriminate X]. exists l', h', v'. split; [reflexivity|].
  apply Forall2_app_inv_l in F' as (a & b & Fa & Fb & Eab).
  assert (La := BuilderFacts.Forall2_len _ _ _ Fa). assert (Lv := BuilderFacts.Forall2_len _ _ _ F).
  inversion Fb as [|x y ? ? Hxy Hrest]; subst. inversion Hrest; subst.
  apply app_inj_tail in Eab as [_ <-]. exact Hxy.
Qed.
Print Assumptions C90_cannot_fail.
(** With no [None] anywhere in definitions and in values set with editors, nothing has to be
    planned: then only arrays, transforms and silenced editors matter. *)
Theorem C90_without_none {N} (m : method N) :
  match m with
  | MDefine _ t | MSetAccumulator _ t | MSetDefaults _ t => made_of_arrays t /\ no_none t = true
  | MDefineByShape _ shapes _ _ => no_none shapes = true
  | _ => method_ok no_nones m
  end -> method_ok no_nones m.
Proof.
  destruct m; auto; cbn [method_ok]; unfold no_nones.
  - intros [A B]. split; [exact A|]. now rewrite no_none_def.
  - intros A t Ht. rewrite no_none_def. exact (describes_no_none _ _ _ _ Ht A).
  - intros [A B]. split; [exact A|]. intros t0 H0 S. rewrite no_none_def in H0. now apply UtilsFacts.no_none_structure.
  - intros [A B]. split; [exact A|]. intros t0 H0 S. rewrite no_none_def in H0. now apply UtilsFacts.no_none_structure.
Qed.
Print Assumptions C90_without_none.

(** From nothing to a controller with a tensor and a tree (with a [None] inside), through
    iterations, a viewer, a masked save loaded as a controller again, an editor; with failures on
    the way. *)
Definition plan90 : plan := fun name s => s = structure (if String.eqb name "x" then t_x else t_y).
Definition hist90 : list (hcall QcNum) :=
  [ NewBuilder (N := QcNum) (Some None) (BInt 2) None (q 1 10) (q 1 1);
    NewBuilder (N := QcNum) (Some None) (BInt 2) None (q 1 1) (q 1 1);
    On (N := QcNum) 0 (MDefineByShape (N := QcNum) "x" (int_list [2; 2]%Z) DF32 (q 1 1));
    On (N := QcNum) 1 (MDefine "y" t_y); On (N := QcNum) 1 (MDefine "x" (Leaf (arr [3] [q 0 1; q 0 1; q 0 1])));
    On (N := QcNum) 2 MBuild; On (N := QcNum) 3 (MCache "x" (u_x 1 2 3 4)); On (N := QcNum) 4 (MCache "y" (u_y 1 2 3 4));
    On (N := QcNum) 5 (MIter (hp (q 1 1) (q 1 2))); On (N := QcNum) 6 MReset; On (N := QcNum) 6 MMakeViewer;
    On (N := QcNum) 7 MHalted; On (N := QcNum) 8 MSave; On (N := QcNum) 9 MLoadController;
    On (N := QcNum) 10 (MIter (hp (q 1 3) (q 1 2))); On (N := QcNum) 11 (MEditController "standard");
    On (N := QcNum) 12 (MSetAccumulator "y" (u_y 9 9 9 9)); On (N := QcNum) 12 (MSetAccumulator "y" t_x);
    On (N := QcNum) 13 (MSetProbabilities (hp (q 3 2) (q 1 2))); On (N := QcNum) 13 (MSetEpsilon (N := QcNum) (q 0 1));
    On (N := QcNum) 14 MRoundTrip; On (N := QcNum) 15 MBuild; On (N := QcNum) 5 (MMask DBool (mkT [2] [true; false]));
    On (N := QcNum) 7 (MMask DBool (mkT [2] [true; false])); On (N := QcNum) 3 (MEditController "checkify") ].
Lemma hist90_ok : Forall (hcall_ok plan90) hist90 /\ Forall hcall_ranged hist90.
Proof.
  split.
  - repeat (apply Forall_cons; [cbn [hcall_ok method_ok]; try exact I; try discriminate; try reflexivity; try (repeat constructor; fail)|]);
      [..|apply Forall_nil].
    + intros t Ht. inversion Ht as [zs Hz E|n cs ts Hn Hf E]; subst; [reflexivity|]. exfalso. apply (Hn [2; 2]%Z). reflexivity.
    + split; [repeat constructor|]. unfold plan90. cbn. intros t Ht _. now rewrite Ht.
    + split; [repeat constructor|]. unfold plan90. cbn. intros t Ht S. inversion S; subst; discriminate Ht.
  - repeat (apply Forall_cons; [cbn [hcall_ranged]; try exact I; unfold Qcle; vm_compute; discriminate|]). apply Forall_nil.
Qed.
Example C90_case :
  Forall (hcall_ok plan90) hist90 /\ Forall hcall_ranged hist90 /\
  fst (fst (heap_run [] [] hist90)) =
    [None; Some ValueError; None; None; Some ValueError; None; None; None; None; Some AttributeError; None; None; None; None;
     None; None; None; Some JaxRuntimeError; Some JaxRuntimeError; None; None; None; Some AttributeError; None; Some ValueError] /\
  length (snd (fst (heap_run [] [] hist90))) = 18.
Proof. split; [apply hist90_ok|]. split; [apply hist90_ok|]. split; vm. Qed.
(** Both provisos about editors are needed: with a silenced editor, or with a [None] in the place of
    a tensor, controllers come about whose accumulators do not fit. *)
Definition spoil (m1 m2 : method QcNum) : list (hcall QcNum) :=
  [ NewBuilder (N := QcNum) (Some None) (BInt 2) None (q 1 10) (q 1 1); On (N := QcNum) 0 (MDefine "x" t_x);
    On (N := QcNum) 1 MBuild; On (N := QcNum) 2 m1; On (N := QcNum) 3 m2; On (N := QcNum) 4 MBuild ].
Definition kind_of (t : tr) := (structure t, map sig (leaves t)).
(** structure, shapes and dtypes of accumulator and default "x" *)
Definition kinds_at (h : heap QcNum) (l : loc) :=
  match view h l with
  | Some (PController s) => (option_map kind_of (dget "x" (accumulators s)), option_map kind_of (dget "x" (defaults s)))
  | _ => (None, None)
  end.
Lemma spoiled (h : heap QcNum) (p : list loc) l k1 k2 :
  In l p -> kinds_at h l = (Some k1, Some k2) -> k1 <> k2 ->
  ~ Forall (fun l => exists v, view h l = Some v /\ consistent (fun _ _ => True) v) p.
Proof.
  intros Hl Hk A X. rewrite Forall_forall in X. destruct (X l Hl) as (v & Hv & C). unfold kinds_at in Hk. rewrite Hv in Hk.
  destruct v as [s| | | |]; try discriminate Hk. destruct C as [W _]. cbn [inside] in W.
  destruct (dget "x" (accumulators s)) as [t|] eqn:Ht; [|discriminate Hk]. destruct (dget "x" (defaults s)) as [d|] eqn:Hd; [|discriminate Hk].
  cbn [option_map] in Hk. destruct (wf_def _ W _ _ _ Ht Hd) as [[E1 E2] _]. apply A. unfold kind_of in Hk. congruence.
Qed.
Definition misfit : tr := Leaf (arr [3] [q 0 1; q 0 1; q 0 1]).
Definition silenced := heap_run [] [] (spoil (MEditController "silence") (MSetAccumulator "x" misfit)).
Definition none_set := heap_run [] [] (spoil (MEditController "standard") (MSetAccumulator "x" tnone)).
Example C90_needs_provisos :
  ~ Forall (fun l => exists v, view (snd silenced) l = Some v /\ consistent (fun _ _ => True) v) (snd (fst silenced)) /\
  ~ Forall (fun l => exists v, view (snd none_set) l = Some v /\ consistent (fun _ _ => True) v) (snd (fst none_set)).
Proof.
  split.
  - apply (spoiled (snd silenced) _ 15 (kind_of misfit) (kind_of t_x)).
    + replace (snd (fst silenced)) with [4; 9; 10; 11; 14; 15] by (symmetry; vm). cbn. tauto.
    + vm.
    + discriminate.
  - apply (spoiled (snd none_set) _ 15 (kind_of tnone) (kind_of t_x)).
    + replace (snd (fst none_set)) with [4; 9; 10; 11; 14; 15] by (symmetry; vm). cbn. tauto.
    + vm.
    + discriminate.
Qed.
