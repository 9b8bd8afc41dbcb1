(** * Threads and interruptions (C88). Vocabulary: ThreadSpec.v and HeapSpec.v. *)
From Coq Require Import QArith Qcanon.
From Verif Require Import Base PyTree Tensor Num Utils States Controller Builder Viewer Editor Wf
  Heap HeapSpec ThreadSpec.
From Verif Require Import BaseFacts HeapFacts HeapFacts2 HeapFacts3 HeapFacts4 ThreadFacts ThreadFacts2 ThreadFacts3 QcFacts Samples
  PropsHeap.
Close Scope Qc_scope. Close Scope Q_scope. Open Scope string_scope. Open Scope list_scope. Open Scope nat_scope.

(** ** C88 *)
(** Whatever the threads do and wherever calls are broken off, at every moment the calls that have
    ended gave the exceptions and objects they give one after another, on values, in the order in
    which they ended; calls in progress and calls broken off count for nothing. *)
Theorem C88_as_if_in_turn {N} (c0 c : config N) (vs0 : list (pyval N)) :
  begins c0 vs0 -> steps c0 c ->
  exists vs, pure_run vs0 (map fst (c_ended c)) = (map snd (c_ended c), vs) /\
    Forall2 (fun l v => view (c_heap c) l = Some v) (c_pool c) vs.
Proof.
  intros B S. destruct (invariant_steps _ _ _ (invariant_begins _ _ B) S) as (G & ids & fr & vs & _ & _ & _ & _ & H5 & _ & H7 & _).
  exists vs. split; [exact H7|exact H5].
Qed.
Print Assumptions C88_as_if_in_turn.
(** An object some thread holds is there at every later moment, with the contents it had. *)
Theorem C88_contents_kept {N} (c0 c c' : config N) (vs0 : list (pyval N)) :
  begins c0 vs0 -> steps c0 c -> steps c c' ->
  forall i l v, nth_error (c_pool c) i = Some l -> view (c_heap c) l = Some v ->
    nth_error (c_pool c') i = Some l /\ view (c_heap c') l = Some v.
Proof.
  intros B S S' i l v Hi Hv.
  pose proof (invariant_steps _ _ _ (invariant_begins _ _ B) S) as I.
  pose proof (invariant_steps _ _ _ I S') as I'.
  destruct I as (G & ids & fr & vs & _ & _ & _ & _ & H5 & _ & H7 & _).
  destruct I' as (G' & ids' & fr' & vs' & _ & _ & _ & _ & H5' & _ & H7' & _).
  destruct (steps_grow _ _ S') as ((t & Et) & (u & Eu)).
  assert (Hi' : nth_error (c_pool c') i = Some l).
  { rewrite Et, nth_error_app1; [exact Hi|]. apply nth_error_Some. congruence. }
  split; [exact Hi'|]. rewrite Eu, !map_app in H7'.
  destruct (pure_run_app vs0 (map fst (c_ended c)) (map fst u)) as (es & t2 & E). rewrite E, H7 in H7'. cbn [fst snd] in H7'.
  injection H7' as _ <-. unfold shows in *.
  assert (X : nth_error vs i = Some v).
  { clear -H5 Hi Hv. revert i Hi. induction H5 as [|l0 v0 p vs H0 Hs IH]; intros [|i] Ei; try discriminate; cbn in *; [congruence|auto]. }
  assert (Y : nth_error (vs ++ t2) i = Some v) by (rewrite nth_error_app1; [exact X|]; apply nth_error_Some; congruence).
  clear -H5' Hi' Y. revert i Hi' Y. induction H5' as [|l0 v0 p vs1 H0 Hs IH]; intros [|i] Ei Y; try discriminate; cbn in *; [congruence|eauto].
Qed.
Print Assumptions C88_contents_kept.
(** A call ends after finitely many accesses of its own, whatever happens on the heap between them:
    there is no infinite sequence of accesses of one call. *)
Theorem C88_every_call_ends {N} (rest : nat -> M N loc) :
  ~ forall i, exists h h', access (rest i) h (rest (S i)) h'.
Proof.
  intros H. remember (rest 0) as q eqn:E. revert rest E H.
  induction q as [r|o k IH|l k IH|l o k IH]; intros rest E H; destruct (H 0) as (h & h' & A); rewrite <- E in A; inversion A; subst.
  - apply (IH (length h) (fun i => rest (S i))); [congruence|]. intros i. apply H.
  - apply (IH (nth_error h' l) (fun i => rest (S i))); [congruence|]. intros i. apply H.
  - apply (IH (fun i => rest (S i))); [congruence|]. intros i. apply H.
Qed.
Print Assumptions C88_every_call_ends.
(** And it never waits: as long as it has not ended it can make its next access. *)
Theorem C88_no_call_waits {N} (c : config N) rs1 k q rs2 :
  c_running c = rs1 ++ (k, q) :: rs2 ->
  (exists r, q = Done r) \/
  exists q' h', step c (mkC h' (c_pool c) (rs1 ++ (k, q') :: rs2) (c_ended c)) /\ access q (c_heap c) q' h'.
Proof.
  destruct c as [h p rs es]. cbn. intros ->. destruct q as [r|o f|l f|l o f]; [eauto|right..].
  - exists (f (length h)), (h ++ [o]). split; [apply st_access|]; constructor.
  - exists (f (nth_error h l)), h. split; [apply st_access|]; constructor.
  - exists f, (put h l o). split; [apply st_access|]; constructor.
Qed.
Print Assumptions C88_no_call_waits.

(** A schedule: start a call, let the [i]-th call in progress do its next thing, break it off. *)
Inductive event (N : numsys) := Begin (c : hcall N) | Go (i : nat) | Break (i : nat).
Arguments Begin {N} c. Arguments Go {N} i. Arguments Break {N} i.
Definition turn {N} (c : config N) (e : event N) : config N :=
  let '(mkC h p rs es) := c in
  match e with
  | Begin (On i m) => match nth_error p i with Some l => mkC h p (rs ++ [(On i m, heap_call m l)]) es | None => c end
  | Begin (NewBuilder em b d eps dep) => mkC h p (rs ++ [(NewBuilder em b d eps dep, h_new_builder em b d eps dep)]) es
  | Go i =>
      match skipn i rs with
      | (k, q) :: rs2 =>
          let rs1 := firstn i rs in
          match q with
          | Done (Ok l) => mkC h (p ++ [l]) (rs1 ++ rs2) (es ++ [(k, None)])
          | Done (Err x) => mkC h p (rs1 ++ rs2) (es ++ [(k, Some x)])
          | Alloc o f => mkC (h ++ [o]) p (rs1 ++ (k, f (length h)) :: rs2) es
          | Read l f => mkC h p (rs1 ++ (k, f (nth_error h l)) :: rs2) es
          | Write l o f => mkC (put h l o) p (rs1 ++ (k, f) :: rs2) es
          end
      | [] => c
      end
  | Break i => match skipn i rs with _ :: rs2 => mkC h p (firstn i rs ++ rs2) es | [] => c end
  end.
Lemma turn_step {N} (c : config N) e : turn c e = c \/ step c (turn c e).
Proof.
  destruct c as [h p rs es], e as [[i m|em b d eps dep]|i|i]; cbn [turn].
  - destruct (nth_error p i) eqn:E; [right; now constructor|now left].
  - right. constructor.
  - pose proof (firstn_skipn i rs) as F. destruct (skipn i rs) as [|[k q] rs2]; [now left|right].
    rewrite <- F at 1. destruct q as [[l|x]|o f|l f|l o f]; repeat constructor.
  - pose proof (firstn_skipn i rs) as F. destruct (skipn i rs) as [|r rs2]; [now left|right].
    rewrite <- F at 1. constructor.
Qed.
Lemma turns_steps {N} (c : config N) evs : steps c (fold_left turn evs c).
Proof.
  induction evs as [|e evs IH] using rev_ind; [constructor|]. rewrite fold_left_app. cbn [fold_left].
  destruct (turn_step (fold_left turn evs c) e) as [-> | H]; [exact IH|]. eapply steps_more; [exact IH|exact H].
Qed.
(** Three threads use one controller: two set different updates for the same accumulator, the third
    is broken off in the middle of an iteration and leaves objects behind that nobody has. Then the
    results are iterated at the same time. *)
Definition conf0 : config QcNum := mkC heap1 [4; 5] [] [].
Definition schedule1 : list (event QcNum) :=
  [Begin (On (N := QcNum) 0 (MCache "x" (u_x 1 2 3 4))); Begin (On (N := QcNum) 1 (MCache "x" (u_x 5 6 7 8)));
   Begin (On (N := QcNum) 0 MReset)] ++
  flat_map (fun _ => [Go 0; Go 1; Go 2]) (seq 0 9) ++ [Break 2] ++
  flat_map (fun _ => [Go 1; Go 0]) (seq 0 40) ++
  [Begin (On (N := QcNum) 2 (MIter (hp (q 1 1) (q 1 2)))); Begin (On (N := QcNum) 3 (MIter (hp (q 1 2) (q 1 4))));
   Begin (On (N := QcNum) 3 (MCache "x" (u_x 1 1 1 1)))] ++
  flat_map (fun _ => [Go 2; Go 1; Go 0; Go 0]) (seq 0 60).
Definition conf1 : config QcNum := fold_left turn schedule1 conf0.
Lemma conf0_begins : begins conf0 [PController ctl1; PController ctl1].
Proof.
  split; [|split; [|split; reflexivity]].
  - repeat constructor.
  - repeat constructor.
Qed.
Example C88_case :
  begins conf0 [PController ctl1; PController ctl1] /\ steps conf0 conf1 /\
  map snd (c_ended conf1) = [None; None; Some RuntimeError; None; None] /\
  length (c_pool conf1) = 6 /\ length (c_running conf1) = 0 /\ length (c_heap conf1) = 21 /\
  forallb (fun l => match view (c_heap conf1) l with Some (PController _) => true | _ => false end) (c_pool conf1) = true.
Proof.
  split; [apply conf0_begins|]. split; [exact (turns_steps conf0 schedule1)|].
  split; [vm|]. split; [vm|]. split; [vm|]. split; vm.
Qed.
