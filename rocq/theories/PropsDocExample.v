(** * C106: the documented way of making a controller (core/builder.py:99-119). Vocabulary: HeapSpec.v (calls on objects), BuilderSpec.v. *)
From Coq Require Import QArith Qcanon Lia.
From Verif Require Import Base PyTree Tensor Num Utils States Controller Builder Viewer Editor Wf Heap HeapSpec BuilderSpec.
From Verif Require Import BaseFacts BuilderFacts HeapFacts HeapFacts2 HeapFacts3 HeapFacts4 Samples PropsController PropsHeap.
Close Scope Qc_scope. Close Scope Q_scope. Open Scope string_scope. Open Scope list_scope. Open Scope nat_scope.

Lemma forall2_len {A B} {R : A -> B -> Prop} {l l'} : Forall2 R l l' -> length l = length l'. Proof. induction 1; cbn; congruence. Qed.

Section Doc.
  Context {N : numsys}.
  Notation st := (state N).
  (** The example of the class documentation, with any sizes:
<<
      builder = ControllerBuilder.new_builder(batch_shape)
      builder.define_accumulator_by_shape("state", [batch_shape, state_shape])
      builder.define_accumulator_by_shape("output", [batch_shape, output_shape])
      controller = builder.build()
>>
      Object 0 is the builder; what the two definitions return is not assigned. The error mode that the pinned [new_builder] forgets to
      pass (C22) is supplied. *)
  Definition doc_example (m : option string) (b n o : nat) (d : dtype) (eps dep fill : scl N) : list (hcall N) :=
    [NewBuilder (Some m) (BInt (Z.of_nat b)) None eps dep;
     On 0 (MDefineByShape "state" (int_list [Z.of_nat b; Z.of_nat n]) d fill);
     On 0 (MDefineByShape "output" (int_list [Z.of_nat b; Z.of_nat o]) d fill);
     On 0 MBuild].
  (** The same with the results assigned: [builder = builder.define_accumulator_by_shape(...)]. *)
  Definition repaired_example (m : option string) (b n o : nat) (d : dtype) (eps dep fill : scl N) : list (hcall N) :=
    [NewBuilder (Some m) (BInt (Z.of_nat b)) None eps dep;
     On 0 (MDefineByShape "state" (int_list [Z.of_nat b; Z.of_nat n]) d fill);
     On 1 (MDefineByShape "output" (int_list [Z.of_nat b; Z.of_nat o]) d fill);
     On 2 MBuild].

  Lemma on_first ms : forall (v : pyval N) p es p', pure_run (v :: p) (map (On 0) ms ++ [On 0 MBuild]) = (es, p') ->
    forall s, v = PBuilder s -> exists q, p' = v :: q ++ [PController s].
  Proof.
    induction ms as [|m ms IH]; intros v p es p' H s ->.
    - cbn in H. injection H as _ <-. exists p. reflexivity.
    - cbn [map app pure_run] in H. destruct (match pure_do _ _ with Ok w => _ | Err _ => _ end) as [|w q] eqn:E.
      { destruct (pure_do _ _); discriminate. }
      destruct (pure_run (w :: q) _) as [es1 p1] eqn:R. injection H as _ <-. 
      assert (w = PBuilder s) as -> by (destruct (pure_do _ _); cbn in E; congruence). exact (IH _ _ _ _ R s eq_refl).
  Qed.
  Lemma by_shape_ok (s : st) k b n d fill : batch_shape s = [b] -> is_floating d = true ->
    define_by_shape s k (int_list [Z.of_nat b; Z.of_nat n]) d fill = Ok (defined s k (Leaf (a_full [b; n] (v_of_scl N fill) d))).
  Proof.
    intros B D. apply define_by_shape_ok_iff. eexists. split.
    - apply D_leaf. repeat constructor; lia.
    - unfold shape_of. cbn [map]. rewrite !Nat2Z.id. apply define_ok_iff. split; [|reflexivity].
      constructor; [|constructor]. split; [exact D|]. rewrite B. exists [n]. reflexivity.
  Qed.
End Doc.

(** However a builder is used, as long as the results of its methods are not assigned: [builder.build()] gives a controller without
    accumulators, which accepts no update at all. *)
Theorem C106_results_not_assigned_are_lost {N} m b cd (eps dep : scl N) (ms : list (method N)) es p h :
  heap_run [] [] (NewBuilder (Some m) b cd eps dep :: map (On 0) ms ++ [On 0 MBuild]) = (es, p, h) -> hd_error es = Some None ->
  exists l s, nth_error p (length p - 1) = Some l /\ view h l = Some (PController s) /\ accumulators s = [] /\
    forall name item, fst (fst (heap_run p h [On (length p - 1) (MCache name item)])) = [Some ValueError].
Proof.
  intros H E. destruct (pure_run [] (NewBuilder (Some m) b cd eps dep :: map (On 0) ms ++ [On 0 MBuild])) as [es' vs] eqn:P.
  destruct (C41_sharing_is_invisible _ _ _ _ _ _ _ _ _ (Forall2_nil _) H P) as [<- V].
  cbn [pure_run] in P. cbn [pure_do] in P. destruct (new_builder_with (Some m) b cd eps dep) as [s|e] eqn:B; cbn [fmap outcome app] in P.
  2:{ destruct (pure_run _ _). injection P as <- _. discriminate. }
  destruct (pure_run [PBuilder s] _) as [es1 p1] eqn:R. injection P as _ <-. destruct (on_first ms _ _ _ _ R s eq_refl) as [q ->].
  assert (L : length p - 1 = S (length q)) by (rewrite (forall2_len V); cbn; rewrite app_length; cbn; lia).
  assert (X : nth_error (PBuilder s :: q ++ [PController s]) (S (length q)) = Some (PController s)).
  { cbn. rewrite nth_error_app2 by lia. now rewrite Nat.sub_diag. }
  rewrite L. destruct (nth_error p (S (length q))) as [l|] eqn:G.
  2:{ apply nth_error_None in G. lia. }
  assert (Vl : view h l = Some (PController s)).
  { clear - V G X. remember (S (length q)) as i eqn:Ei. clear Ei. revert i G X. induction V as [|x y xs ys Hxy _ IH]; intros [|i] G X; try discriminate.
    - injection G as ->. injection X as ->. exact Hxy.
    - exact (IH i G X). }
  exists l, s. split; [reflexivity|]. split; [exact Vl|].
  apply new_builder_with_ok in B as (_ & _ & _ & ->). split; [reflexivity|].
  intros name item. destruct (heap_run p h [On (S (length q)) (MCache name item)]) as [[es2 p2] h2] eqn:H2.
  destruct (pure_run (PBuilder (empty_state (shape_of (batch_dims b)) (core cd) eps dep m) :: q ++ [PController (empty_state (shape_of (batch_dims b)) (core cd) eps dep m)])
    [On (S (length q)) (MCache name item)]) as [es3 vs3] eqn:P2.
  destruct (C41_sharing_is_invisible _ _ _ _ _ _ _ _ _ V H2 P2) as [<- _]. cbn [fst].
  cbn [pure_run pure_do] in P2. rewrite X in P2. injection P2 as <- _. reflexivity.
Qed.
Print Assumptions C106_results_not_assigned_are_lost.
(** So the example of the documentation returns at every call and gives a controller that cannot be used. *)
Theorem C106_refuted {N} m b n o d (eps dep fill : scl N) : eps_sane eps -> is_floating d = true ->
  let '(es, p, h) := heap_run [] [] (doc_example m b n o d eps dep fill) in
  es = [None; None; None; None] /\ exists l s, nth_error p 3 = Some l /\ view h l = Some (PController s) /\ accumulators s = [] /\
    forall name item, fst (fst (heap_run p h [On 3 (MCache name item)])) = [Some ValueError].
Proof.
  intros He Hd. destruct (heap_run [] [] (doc_example m b n o d eps dep fill)) as [[es p] h] eqn:H.
  destruct (pure_run [] (doc_example m b n o d eps dep fill)) as [es' vs] eqn:P.
  destruct (C41_sharing_is_invisible _ _ _ _ _ _ _ _ _ (Forall2_nil _) H P) as [<- V].
  unfold doc_example in P. cbn [pure_run] in P. cbn [pure_do] in P.
  assert (B : new_builder_with (Some m) (BInt (Z.of_nat b)) None eps dep = Ok (empty_state [b] DF32 eps dep m)).
  { apply new_builder_with_ok. repeat split; try apply He; [repeat constructor; lia|]. cbn. now rewrite Nat2Z.id. }
  rewrite B in P. cbn [fmap outcome app nth_error pure_call] in P.
  rewrite !by_shape_ok in P by (reflexivity || exact Hd). cbn [fmap outcome app nth_error pure_call] in P.
  rewrite ?by_shape_ok in P by (reflexivity || exact Hd). cbn [fmap outcome app nth_error pure_call] in P. injection P as <- <-.
  split; [reflexivity|].
  pose proof (C106_results_not_assigned_are_lost m (BInt (Z.of_nat b)) None eps dep
    [MDefineByShape "state" (int_list [Z.of_nat b; Z.of_nat n]) d fill; MDefineByShape "output" (int_list [Z.of_nat b; Z.of_nat o]) d fill] _ _ _ H eq_refl) as X.
  assert (L : length p - 1 = 3) by (rewrite (forall2_len V); reflexivity). now rewrite L in X.
Qed.
Print Assumptions C106_refuted.
(** With the results assigned it works: the controller has the two accumulators, of the given shapes, and takes updates for both. *)
Theorem C106_partial {N} m b n o d (eps dep fill : scl N) : eps_sane eps -> is_floating d = true ->
  let '(es, p, h) := heap_run [] [] (repaired_example m b n o d eps dep fill) in
  es = [None; None; None; None] /\ exists l s, nth_error p 3 = Some l /\ view h l = Some (PController s) /\
    dkeys (accumulators s) = ["state"; "output"] /\
    dget "state" (accumulators s) = Some (Leaf (a_full [b; n] (v_of_scl N fill) d)) /\
    dget "output" (accumulators s) = Some (Leaf (a_full [b; o] (v_of_scl N fill) d)) /\
    forall u v, fst (fst (heap_run p h [On 3 (MCache "state" u); On 4 (MCache "output" v)])) = [None; None].
Proof.
  intros He Hd. destruct (heap_run [] [] (repaired_example m b n o d eps dep fill)) as [[es p] h] eqn:H.
  destruct (pure_run [] (repaired_example m b n o d eps dep fill)) as [es' vs] eqn:P.
  destruct (C41_sharing_is_invisible _ _ _ _ _ _ _ _ _ (Forall2_nil _) H P) as [<- V].
  unfold repaired_example in P. cbn [pure_run] in P. cbn [pure_do] in P.
  assert (B : new_builder_with (Some m) (BInt (Z.of_nat b)) None eps dep = Ok (empty_state [b] DF32 eps dep m)).
  { apply new_builder_with_ok. repeat split; try apply He; [repeat constructor; lia|]. cbn. now rewrite Nat2Z.id. }
  rewrite B in P. cbn [fmap outcome app nth_error pure_call] in P.
  rewrite by_shape_ok in P by (reflexivity || exact Hd). cbn [fmap outcome app nth_error pure_call] in P.
  rewrite by_shape_ok in P by (reflexivity || exact Hd). cbn [fmap outcome app nth_error pure_call] in P. injection P as <- <-.
  split; [reflexivity|].
  inversion V as [|l0 v0 p0 q0 _ V0]; subst. inversion V0 as [|l1 v1 p1 q1 _ V1]; subst. inversion V1 as [|l2 v2 p2 q2 _ V2]; subst.
  inversion V2 as [|l3 v3 p3 q3 V3 Vn]; subst. inversion Vn; subst.
  exists l3. eexists. split; [reflexivity|]. split; [exact V3|]. split; [reflexivity|]. split; [reflexivity|]. split; [reflexivity|].
  intros u v. destruct (heap_run [l0; l1; l2; l3] h [On 3 (MCache "state" u); On 4 (MCache "output" v)]) as [[es2 p2] h2] eqn:H2.
  match type of V with Forall2 _ _ ?vs => destruct (pure_run vs [On 3 (MCache "state" u); On 4 (MCache "output" v)]) as [es3 vs3] eqn:P2 end.
  destruct (C41_sharing_is_invisible _ _ _ _ _ _ _ _ _ V H2 P2) as [<- _]. cbn [fst].
  cbn in P2. injection P2 as <- _. reflexivity.
Qed.
Print Assumptions C106_partial.

(** the sizes of the documentation: batch 30, state 20, output 10 *)
Example C106_case : eps_sane (N := QcNum) (q 1 10000) /\ is_floating DF32 = true /\
  fst (fst (heap_run [] [] (doc_example (N := QcNum) (Some "standard") 30 20 10 DF32 (q 1 10000) (q 1 1) (q 0 1)))) = [None; None; None; None] /\
  fst (fst (heap_run [] [] (repaired_example (N := QcNum) (Some "standard") 30 20 10 DF32 (q 1 10000) (q 1 1) (q 0 1)))) = [None; None; None; None] /\
  fst (fst (heap_run [] [] (doc_example (N := QcNum) (Some "standard") 30 20 10 DF32 (q 1 10000) (q 1 1) (q 0 1) ++
    [On (N := QcNum) 3 (MCache "state" (Leaf (arr [30; 20] (repeat (q 1 1) 600))))]))) = [None; None; None; None; Some ValueError].
Proof. split; [split; vm_compute; reflexivity|]. split; [reflexivity|]. split; [vm_compute; reflexivity|]. split; vm_compute; reflexivity. Qed.
