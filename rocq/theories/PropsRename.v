(** * Accumulator names are labels (C80). Vocabulary: RenameSpec.v, HeapSpec.v. *)
From Coq Require Import QArith Qcanon.
From Verif Require Import Base PyTree Tensor Num Utils States Controller Builder Viewer Editor Wf Heap HeapSpec RenameSpec.
From Verif Require Import BaseFacts HeapFacts HeapFacts2 HeapFacts3 HeapFacts4 RenameFacts QcFacts Samples PropsHeap.
Close Scope Qc_scope. Close Scope Q_scope. Open Scope string_scope. Open Scope list_scope. Open Scope nat_scope.

(** ** C80 *)
(** Any program of calls on builders, controllers, viewers, editors and saves, with the accumulators renamed
    throughout, raises the same exceptions in the same places and gives the same objects with the accumulators renamed. *)
Theorem C80_names_are_labels {N} (new_name : string -> string) (vs vs' : list (pyval N)) (cs : list (hcall N)) es :
  one_to_one new_name -> Forall no_round_trip cs ->
  pure_run vs cs = (es, vs') ->
  pure_run (map (rename_object new_name) vs) (map (rename_hcall new_name) cs) = (es, map (rename_object new_name) vs').
Proof. intros I H E. rewrite (run_rn new_name I vs cs H), E. reflexivity. Qed.
Print Assumptions C80_names_are_labels.
(** The same for objects that share their data on a heap. *)
Theorem C80_names_are_labels_on_objects {N} (new_name : string -> string) (h1 h2 : heap N) (p1 p2 : list loc)
  (vs : list (pyval N)) (cs : list (hcall N)) es1 q1 h1' es2 q2 h2' :
  one_to_one new_name -> Forall no_round_trip cs ->
  Forall2 (fun l v => view h1 l = Some v) p1 vs ->
  Forall2 (fun l v => view h2 l = Some (rename_object new_name v)) p2 vs ->
  heap_run p1 h1 cs = (es1, q1, h1') -> heap_run p2 h2 (map (rename_hcall new_name) cs) = (es2, q2, h2') ->
  es1 = es2 /\ exists vs', Forall2 (fun l v => view h1' l = Some v) q1 vs' /\
                           Forall2 (fun l v => view h2' l = Some (rename_object new_name v)) q2 vs'.
Proof.
  intros I H V1 V2 R1 R2. destruct (pure_run vs cs) as [es vs'] eqn:E.
  destruct (C41_sharing_is_invisible _ _ _ _ _ _ _ _ _ V1 R1 E) as [-> W1].
  assert (V2' : Forall2 (fun l v => view h2 l = Some v) p2 (map (rename_object new_name) vs)).
  { clear - V2. induction V2; cbn; constructor; auto. }
  destruct (C41_sharing_is_invisible _ _ _ _ _ _ _ _ _ V2' R2 (C80_names_are_labels _ _ _ _ _ I H E)) as [-> W2].
  split; [reflexivity|]. exists vs'. split; [exact W1|]. clear - W2. revert q2 W2.
  induction vs' as [|v vs' IH]; cbn; intros q2 W; inversion W; subst; constructor; auto.
Qed.
Print Assumptions C80_names_are_labels_on_objects.
(** What indexing returns does not change. *)
Theorem C80_indexing {N} (new_name : string -> string) (s : state N) (name : string) :
  one_to_one new_name -> getitem (rename new_name s) (new_name name) = getitem s name.
Proof. intros I. now apply getitem_rn. Qed.
Print Assumptions C80_indexing.
(** a prefix for every name; the history has exceptions *)
Definition prefixed (k : string) : string := "block1/" ++ k.
Lemma prefixed_one_to_one : one_to_one prefixed.
Proof. intros k k' [= E]. exact E. Qed.
Definition hist_names : list (hcall QcNum) := map (fun c => match c with On i MRoundTrip => On i MSave | _ => c end) hist1.
Example C80_case : one_to_one prefixed /\ Forall no_round_trip hist_names /\ length hist_names = 19 /\
  fst (pure_run [PController ctl1; PController ctl1] hist_names) =
    [None; Some RuntimeError; None; None; Some RuntimeError; None; None; Some AttributeError; None;
     None; None; None; None; Some NameError; None; Some TypeError; None; None; None] /\
  dkeys (accumulators (rename prefixed ctl1)) = ["block1/x"].
Proof.
  split; [exact prefixed_one_to_one|]. split; [|split; [reflexivity|split; vm]].
  unfold hist_names, hist1. cbn [map]. repeat constructor; intros i; discriminate.
Qed.
(** Two names must not be identified: *)
Example C80_needs_one_to_one : ~ one_to_one (fun _ => "x").
Proof. intros H. specialize (H "a" "b" eq_refl). discriminate. Qed.
