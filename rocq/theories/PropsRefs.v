(** * Containers handed in and handed out (C77). Vocabulary: RefsSpec.v. *)
From Coq Require Import QArith Qcanon.
From Verif Require Import Base PyTree Tensor Num Utils States Controller Builder Viewer Editor Refs RefsSpec.
From Verif Require Import BaseFacts PyTreeFacts RefsFacts RefsFacts2 QcFacts Samples.
Close Scope Qc_scope. Close Scope Q_scope. Open Scope string_scope. Open Scope list_scope. Open Scope nat_scope.
Ltac vm := vm_compute; reflexivity.

(** ** What the controller holds is the user's object *)
(** After a definition with the container [l], whatever the user makes of [l] is what the accumulator
    and its default read as, without any call. *)
Theorem C77_refuted {N} limit (o : ostate N) (h : containers N) name l o' h' c t :
  object_call limit o (ODefine name (PRef l)) h = (Ok o', h') ->
  fetch limit (user_write h' l c) (PRef l) = Ok t ->
  (exists v, o_getitem o' name = Ok v /\ fetch limit (user_write h' l c) v = Ok t) /\
  (exists v, dget name (o_defaults o') = Some v /\ fetch limit (user_write h' l c) v = Ok t).
Proof.
  cbn [object_call]. unfold o_define, rbind, rfetch, rlift, rret. intros H F.
  destruct (fetch limit h (PRef l)) as [t0|e]; [|discriminate]. destruct (validate_definition _ _); [|discriminate].
  injection H as <- <-. unfold o_getitem, dlookup. cbn [with_tables o_accumulators o_defaults]. rewrite !dget_dset_eq.
  split; exists (PRef l); auto.
Qed.
Print Assumptions C77_refuted.
(** The same for a cached update. *)
Theorem C77_refuted_cached {N} limit (o : ostate N) (h : containers N) name l o' h' c t :
  object_call limit o (OCache name (PRef l)) h = (Ok o', h') ->
  fetch limit (user_write h' l c) (PRef l) = Ok t ->
  exists v, dget name (o_updates o') = Some v /\ fetch limit (user_write h' l c) v = Ok t.
Proof.
  cbn [object_call]. unfold o_cache, rlift, rret. intros H F.
  destruct (dget name (o_updates o)) as [x|]; [destruct (is_pnone x)|]; try discriminate H. cbn in H.
  injection H as <- <-. cbn. rewrite dget_dset_eq. eauto.
Qed.
Print Assumptions C77_refuted_cached.
(** And for a container obtained by indexing the controller. *)
Theorem C77_refuted_handed_out {N} limit (o : ostate N) (h : containers N) name l c t :
  o_getitem o name = Ok (PRef l) -> fetch limit (user_write h l c) (PRef l) = Ok t ->
  exists v, dget name (o_accumulators o) = Some v /\ fetch limit (user_write h l c) v = Ok t.
Proof. unfold o_getitem. intros H F. apply dlookup_ok in H. eauto. Qed.
Print Assumptions C77_refuted_handed_out.

(** ** What holds *)
(** No call, returning or raising, writes to a container that existed before. *)
Theorem C77_partial_nothing_written {N} limit (o : ostate N) (c : ocall N (pyval N)) (h : containers N) r h' :
  object_call limit o c h = (r, h') -> forall l x, nth_error h l = Some x -> nth_error h' l = Some x.
Proof. intros H l x. apply grows_nth. pose proof (call_grows limit o c h) as G. now rewrite H in G. Qed.
Print Assumptions C77_partial_nothing_written.
(** A call adds to what the controller holds only the object passed to it and containers it makes. *)
Theorem C77_partial_ownership {N} limit (o : ostate N) (c : ocall N (pyval N)) (h : containers N) o' h' l :
  object_call limit o c h = (Ok o', h') -> holds h' o' l ->
  holds h o l \/ (exists v, argument c = Some v /\ reaches h v l) \/ length h <= l.
Proof. apply call_holds. Qed.
Print Assumptions C77_partial_ownership.
(** A program that writes only to containers of its own, never to one it passed in or got from the
    controller, sees the controller it would have if pytrees were values: the calls act on the
    arguments as they were when passed. *)
Theorem C77_partial {N} limit (o : ostate N) (h : containers N) s (es : list (event N)) :
  resolve limit o h = Ok s -> private limit o h (fun _ => False) es ->
  forall o' h', object_run limit o h es = (o', h') ->
  resolve limit o' h' = Ok (value_run s (passed limit o h es)).
Proof.
  intros S P o' h' E.
  assert (C : careful limit o h es) by (eapply private_careful; [exact S| | |exact P]; intros ? []).
  pose proof (careful_run limit es o h s C S) as Q. now rewrite E in Q.
Qed.
Print Assumptions C77_partial.
(** The weakest discipline: never write to what the controller holds at that moment. *)
Theorem C77_partial_careful {N} limit (o : ostate N) (h : containers N) s (es : list (event N)) :
  resolve limit o h = Ok s -> careful limit o h es ->
  forall o' h', object_run limit o h es = (o', h') ->
  resolve limit o' h' = Ok (value_run s (passed limit o h es)).
Proof. intros S C o' h' E. pose proof (careful_run limit es o h s C S) as Q. now rewrite E in Q. Qed.
Print Assumptions C77_partial_careful.

(** After an iteration the accumulators are the controller's own and no update is kept: whatever
    happens to the containers that existed before, every accumulator reads the same. Only the
    defaults are still the objects handed in. *)
Theorem C77_partial_iterate {N} limit (o : ostate N) (h : containers N) p o' h' h2 :
  object_call limit o (OIter p) h = (Ok o', h') ->
  (forall l, length h <= l -> nth_error h2 l = nth_error h' l) ->
  o_defaults o' = o_defaults o /\
  forall name v, dget name (o_accumulators o') = Some v ->
    fetch limit h2 v = fetch limit h' v /\ dget name (o_updates o') = Some PNone.
Proof.
  cbn [object_call]. intros E H. destruct (own_iterate limit (length h) o p h (le_n _)) as [G Q]. rewrite E in *. cbn [fst snd] in *.
  destruct (Q _ eq_refl) as (D & A & _). split; [exact D|]. intros name v Hv. destruct (A _ _ Hv) as [W U].
  split; [|exact U]. eapply new_fetch; eauto.
Qed.
Print Assumptions C77_partial_iterate.
Theorem C77_partial_reset {N} limit (o : ostate N) (h : containers N) o' h' h2 :
  object_call limit o OReset h = (Ok o', h') ->
  (forall l, length h <= l -> nth_error h2 l = nth_error h' l) ->
  o_defaults o' = o_defaults o /\ o_updates o' = o_updates o /\
  dmapM (fetch limit h2) (o_accumulators o') = dmapM (fetch limit h') (o_accumulators o').
Proof.
  cbn [object_call]. intros E H. destruct (own_reset limit (length h) o h (le_n _)) as [G Q]. rewrite E in *. cbn [fst snd] in *.
  destruct (Q _ eq_refl) as (D & U & A). split; [exact D|]. split; [exact U|]. eapply new_dict; eauto.
Qed.
Print Assumptions C77_partial_reset.
(** A transformed view shares nothing. *)
Theorem C77_partial_transform {N} limit (o : ostate N) (h : containers N) f o' h' h2 :
  object_call limit o (OTransform f) h = (Ok o', h') ->
  (forall l, length h <= l -> nth_error h2 l = nth_error h' l) ->
  resolve limit o' h2 = resolve limit o' h'.
Proof.
  cbn [object_call]. intros E H. destruct (own_transform limit (length h) o f h (le_n _)) as [G Q]. rewrite E in *. cbn [fst snd] in *.
  destruct (Q _ eq_refl) as (D & A & U). unfold resolve. now rewrite !(new_dict limit h h' h2) by assumption.
Qed.
Print Assumptions C77_partial_transform.

(** ** Cases *)
Definition zeros2 : pyval QcNum := PLeaf (N := QcNum) (arr [2] [q 0 1; q 0 1]).
Definition ones2 : pyval QcNum := PLeaf (N := QcNum) (arr [2] [q 1 1; q 1 1]).
Definition halves : array QcNum := hp (q 1 2) (q 1 4).
Definition wide3 : pyval QcNum := PLeaf (N := QcNum) (arr [3] [q 0 1; q 0 1; q 0 1]).
(** A builder without accumulators. *)
Definition obj0 : ostate QcNum :=
  mkO (N := QcNum) (epsilon (core2 (q 1 1))) (iterations (core2 (q 1 1))) (residuals (core2 (q 1 1)))
    (probabilities (core2 (q 1 1))) [] [] [] (q 1 1) (Some "standard").
(** The docstring's way of building a dict entry by entry, used for the definition (container 0); the
    update is a dict of its own (container 1). *)
Definition def_calls : list (event QcNum) :=
  [EMake (N := QcNum) (NDict ["m"], [zeros2]); ECall (N := QcNum) (ODefine "a" (PRef 0)); EMake (N := QcNum) (NDict ["m"], [ones2]);
   ECall (N := QcNum) (OCache "a" (PRef 1))].
Definition step1 : list (event QcNum) := def_calls ++ [ECall (N := QcNum) (OIter (T := pyval QcNum) halves)].
Definition meddling : list (event QcNum) :=
  def_calls ++ [EWrite (N := QcNum) 0 (NDict ["m"], [wide3]); ECall (N := QcNum) (OIter (T := pyval QcNum) halves)].
(** Writing to a container made but not passed. *)
Definition polite : list (event QcNum) :=
  step1 ++ [EMake (N := QcNum) (NList, [zeros2]); EWrite (N := QcNum) 3 (NList, []); ECall (N := QcNum) (OCache "a" (PRef 1))].
Definition probs_after (es : list (event QcNum)) : list Q :=
  map (fun x : Qc => this x) (a_data (o_probabilities (fst (object_run 9 obj0 [] es)))).
Definition shapes_after (es : list (event QcNum)) : option (list (list (list nat))) :=
  let '(o, h) := object_run 9 obj0 [] es in
  match resolve 9 o h with
  | Ok s => Some (map (fun kv => map (a_shape (N := QcNum)) (leaves (snd kv))) (defaults s ++ accumulators s))
  | Err _ => None
  end.
(** Meddling with the definition makes the next iteration raise; the same program without it
    iterates. *)
Example C77_case :
  shapes_after step1 = Some [[[2]]; [[2]]] /\ probs_after step1 = [1 # 2; 1 # 4]%Q /\
  shapes_after meddling = Some [[[3]]; [[3]]] /\ probs_after meddling = [0 # 1; 0 # 1]%Q.
Proof. repeat split; vm. Qed.
(** The update dict is filled again after the iteration: container 1 is then no longer held. *)
Definition refill : list (event QcNum) :=
  step1 ++ [EWrite (N := QcNum) 1 (NDict ["m"], [zeros2]); ECall (N := QcNum) (OCache "a" (PRef 1));
            ECall (N := QcNum) (OIter (T := pyval QcNum) halves)].
Example C77_case_disciplines :
  resolve 9 obj0 [] = Ok (core2 (q 1 1)) /\
  private 9 obj0 [] (fun _ => False) polite /\
  careful 9 obj0 [] refill /\ probs_after refill = [1 # 1; 1 # 2]%Q /\ ~ careful 9 obj0 [] meddling.
Proof.
  split; [reflexivity|]. split; [eapply private_ok with (mine := []); [vm|intros ? []]|].
  split; [apply careful_ok; vm|]. split; [vm|].
  unfold meddling, def_calls. cbn [app careful]. intros (_ & C).
  cbn [object_event] in C. destruct C as [_ C].
  match type of C with (let '(_, _) := ?x in _) => destruct x as [o1 h1] eqn:E1 end.
  destruct C as [_ C]. cbn [object_event] in C. destruct C as [_ C].
  match type of C with (let '(_, _) := ?x in _) => destruct x as [o2 h2] eqn:E2 end.
  destruct C as [C _]. apply C. clear C.
  cbn in E1. injection E1 as <- <-. cbn in E2. injection E2 as <- <-.
  exists (PRef 0). split; [now left|constructor].
Qed.
