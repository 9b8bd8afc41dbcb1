(** * Two runs of a program on heaps with different addresses

    [rprog n w R p q]: the programs [p] and [q] make the same accesses, to objects the world [w]
    relates, write only to objects the left run made itself (addresses from [n] on), and end alike. *)
From Verif Require Import Base PyTree Tensor Num Utils States Controller Builder Viewer Editor
  Heap HeapSpec HeapFacts HeapFacts2 HeapFacts3 ThreadSpec.

Section Relation.
  Context {N : numsys}.
  Notation st := (state N).
  Notation tr := (tree (array N)).

  (** The right address of each left address, if it has one. *)
  Definition world := list (option loc).
  Definition rloc (w : world) (a b : loc) : Prop := nth_error w a = Some (Some b).
  Definition ext (w w' : world) : Prop := exists t, w' = w ++ t.
  Definition rattr (w : world) (u v : attr) : Prop :=
    match u, v with
    | VBool a, VBool b => a = b
    | VStr a, VStr b => a = b
    | VRef a, VRef b => rloc w a b
    | _, _ => False
    end.
  Definition rattrs (w : world) : dict attr -> dict attr -> Prop :=
    Forall2 (fun x y => fst x = fst y /\ rattr w (snd x) (snd y)).
  Definition rstate (w : world) (x y : hstate N) : Prop :=
    h_epsilon x = h_epsilon y /\ h_iterations x = h_iterations y /\ h_residuals x = h_residuals y /\
    h_probabilities x = h_probabilities y /\ rloc w (h_defaults x) (h_defaults y) /\
    rloc w (h_accumulators x) (h_accumulators y) /\ rloc w (h_updates x) (h_updates y) /\
    h_depression_constant x = h_depression_constant y /\ h_error_mode x = h_error_mode y.
  Definition robj (w : world) (o o' : obj N) : Prop :=
    match o, o' with
    | ODict d, ODict d' => d = d'
    | OState x, OState y => rstate w x y
    | OInst k a, OInst k' a' => k = k' /\ rattrs w a a'
    | _, _ => False
    end.

  Inductive rprog {A B} (n : nat) (R : world -> A -> B -> Prop) : world -> M N A -> M N B -> Prop :=
  | rp_ok w a b : R w a b -> rprog n R w (Done (Ok a)) (Done (Ok b))
  | rp_err w e : rprog n R w (Done (Err e)) (Done (Err e))
  | rp_alloc w o o' k k' :
      robj w o o' -> (forall l', rprog n R (w ++ [Some l']) (k (length w)) (k' l')) ->
      rprog n R w (Alloc o k) (Alloc o' k')
  | rp_read w l l' k k' :
      rloc w l l' -> (forall o o', robj w o o' -> rprog n R w (k (Some o)) (k' (Some o'))) ->
      rprog n R w (Read l k) (Read l' k')
  | rp_write w l l' o o' k k' :
      n <= l -> rloc w l l' -> robj w o o' -> rprog n R w k k' ->
      rprog n R w (Write l o k) (Write l' o' k').

  Lemma ext_refl w : ext w w.
  Proof. exists []. now rewrite app_nil_r. Qed.
  Lemma ext_trans w1 w2 w3 : ext w1 w2 -> ext w2 w3 -> ext w1 w3.
  Proof. intros [t ->] [u ->]. exists (t ++ u). now rewrite app_assoc. Qed.
  Lemma ext_one w x : ext w (w ++ [x]).
  Proof. now exists [x]. Qed.
  Lemma rloc_ext w w' a b : ext w w' -> rloc w a b -> rloc w' a b.
  Proof.
    intros [t ->] H. unfold rloc in *. rewrite nth_error_app1; [exact H|]. apply nth_error_Some. congruence.
  Qed.
  Lemma len_ext n w w' : ext w w' -> n <= length w -> n <= length w'.
  Proof. intros [t ->] H. rewrite app_length. lia. Qed.
  Lemma rattr_ext w w' u v : ext w w' -> rattr w u v -> rattr w' u v.
  Proof. destruct u, v; cbn; auto. apply rloc_ext. Qed.
  Lemma rattrs_ext w w' u v : ext w w' -> rattrs w u v -> rattrs w' u v.
  Proof. intros E H. induction H as [|x y u v [Hk Hv] H IH]; constructor; eauto using rattr_ext. Qed.
  Lemma rstate_ext w w' x y : ext w w' -> rstate w x y -> rstate w' x y.
  Proof. unfold rstate. intuition eauto using rloc_ext. Qed.
  Lemma robj_ext w w' x y : ext w w' -> robj w x y -> robj w' x y.
  Proof. destruct x, y; cbn; auto; [apply rstate_ext|intros E [H1 H2]; eauto using rattrs_ext]. Qed.

  (** ** Composition *)
  Lemma rp_bind {A A' B B'} n w (R : world -> A -> A' -> Prop) (Q : world -> B -> B' -> Prop) p p' f f' :
    rprog n R w p p' ->
    (forall w' a a', ext w w' -> R w' a a' -> rprog n Q w' (f a) (f' a')) ->
    rprog n Q w (mbind p f) (mbind p' f').
  Proof.
    intros H. induction H as [w a b H|w e|w o o' k k' Ho Hk IH|w l l' k k' Hl Hk IH|w l l' o o' k k' Hn Hl Ho Hk IH];
      intros Hf; cbn [mbind].
    - apply Hf; [apply ext_refl|exact H].
    - constructor.
    - constructor; [exact Ho|]. intros l'. apply IH. intros w' a a' E. apply Hf.
      eapply ext_trans; [apply ext_one|exact E].
    - constructor; [exact Hl|]. intros o o' Ho. apply IH; assumption.
    - constructor; auto.
  Qed.
  Lemma rp_rewrap {A B} n w (R : world -> A -> B -> Prop) e p p' :
    rprog n R w p p' -> rprog n R w (mrewrap e p) (mrewrap e p').
  Proof. intros H. induction H; cbn [mrewrap]; constructor; auto. Qed.
  Lemma rp_weaken {A B} n w (R Q : world -> A -> B -> Prop) p p' :
    rprog n R w p p' -> (forall w' a b, ext w w' -> R w' a b -> Q w' a b) -> rprog n Q w p p'.
  Proof.
    intros H. induction H; intros HQ; constructor; auto using ext_refl.
    intros l'. match goal with H : forall _, _ -> rprog _ _ _ _ _ |- _ => apply H end.
    intros w' a b E. apply HQ. eapply ext_trans; [apply ext_one|exact E].
  Qed.

  (** ** Primitives *)
  Definition req {A} (w : world) (a b : A) : Prop := a = b.
  Definition rown (n : nat) (w : world) (a b : loc) : Prop := n <= a /\ rloc w a b.
  Definition rpair (w : world) (x y : cls * dict attr) : Prop := fst x = fst y /\ rattrs w (snd x) (snd y).

  Lemma rp_lift {A} n w (r : res A) : rprog n req w (lift r) (lift r).
  Proof. destruct r; constructor. reflexivity. Qed.
  Lemma rp_new n w o o' : n <= length w -> robj w o o' -> rprog n (rown n) w (alloc o) (alloc o').
  Proof.
    intros Hn H. constructor; [exact H|]. intros l'. constructor. split; [exact Hn|].
    unfold rloc. now rewrite nth_error_app2, Nat.sub_diag by lia.
  Qed.
  Lemma rp_get n w l l' : rloc w l l' -> rprog n robj w (read l) (read l').
  Proof. intros H. constructor; [exact H|]. intros o o' Ho. now constructor. Qed.
  Lemma rp_put n w l l' o o' : rown n w l l' -> robj w o o' -> rprog n req w (write l o) (write l' o').
  Proof. intros [Hn Hl] Ho. constructor; auto. now constructor. Qed.
  Lemma rp_read_dict n w l l' : rloc w l l' -> rprog n req w (read_dict l) (read_dict l').
  Proof.
    intros H. eapply rp_bind; [now apply rp_get|]. intros w' [d|x|k a] [d'|x'|k' a'] _ Ho; cbn in Ho; try contradiction; constructor.
    exact Ho.
  Qed.
  Lemma rp_read_state n w l l' : rloc w l l' -> rprog n rstate w (read_state l) (read_state l').
  Proof.
    intros H. eapply rp_bind; [now apply rp_get|]. intros w' [d|x|k a] [d'|x'|k' a'] _ Ho; cbn in Ho; try contradiction; constructor.
    exact Ho.
  Qed.
  Lemma rp_read_inst n w l l' : rloc w l l' -> rprog n rpair w (read_inst l) (read_inst l').
  Proof.
    intros H. eapply rp_bind; [now apply rp_get|]. intros w' [d|x|k a] [d'|x'|k' a'] _ Ho; cbn in Ho; try contradiction; constructor.
    exact Ho.
  Qed.
  Lemma rp_dict_copy n w l l' : n <= length w -> rloc w l l' -> rprog n (rown n) w (dict_copy l) (dict_copy l').
  Proof.
    intros Hn H. eapply rp_bind; [now apply rp_read_dict|]. intros w' d d' E ->. apply rp_new; [eauto using len_ext|reflexivity].
  Qed.
  Lemma rp_dict_set n w l l' k v : rown n w l l' -> rprog n req w (dict_set l k v) (dict_set l' k v).
  Proof.
    intros [Hn H]. eapply rp_bind; [now apply rp_read_dict|]. intros w' d d' E ->.
    apply rp_put; [split; eauto using rloc_ext|reflexivity].
  Qed.
  Lemma rp_dict_pop n w l l' k : rown n w l l' -> rprog n req w (dict_pop l k) (dict_pop l' k).
  Proof.
    intros [Hn H]. eapply rp_bind; [now apply rp_read_dict|]. intros w' d d' E ->.
    eapply rp_bind; [apply rp_lift|]. intros w2 d2 d2' E2 ->.
    apply rp_put; [split; eauto using rloc_ext|reflexivity].
  Qed.
  Lemma rp_dict_new n w : n <= length w -> rprog n (rown n) w dict_new dict_new.
  Proof. intros H. now apply rp_new. Qed.
  Lemma rattrs_dget w u v k : rattrs w u v ->
    match dget k u, dget k v with Some a, Some b => rattr w a b | None, None => True | _, _ => False end.
  Proof.
    intros H. induction H as [|[a x] [b y] u v [Hk Hv] H IH]; cbn; [exact I|]. cbn in Hk, Hv. subst b.
    destruct (String.eqb k a); [exact Hv|exact IH].
  Qed.
  Lemma rattrs_dset w u v k x y : rattrs w u v -> rattr w x y -> rattrs w (dset k x u) (dset k y v).
  Proof.
    intros H Hx. induction H as [|[a x'] [b y'] u v [Hk Hv] H IH]; cbn [dset]; [constructor; [split; auto|constructor]|].
    cbn in Hk, Hv. subst b. destruct (String.eqb k a); constructor; auto; now split.
  Qed.
  Lemma rp_truthy n w u v : rattr w u v -> rprog n req w (truthy u) (truthy v).
  Proof.
    destruct u, v; cbn; try contradiction; intros H; subst; try (constructor; reflexivity).
    constructor; [exact H|]. intros o o' Ho. constructor. unfold req.
    destruct o, o'; cbn in Ho; try contradiction; now subst.
  Qed.
  Lemma rp_setattr n w l l' key u v : rown n w l l' -> rattr w u v -> rprog n req w (setattr l key u) (setattr l' key v).
  Proof.
    intros [Hn Hl] Hv. eapply rp_bind; [now apply rp_read_inst|]. intros w' [k a] [k' a'] E [Hk Ha]. cbn in Hk, Ha. subst k'.
    eapply rp_bind with (R := req).
    { pose proof (rattrs_dget _ _ _ a_flag Ha) as G. destruct (dget a_flag a), (dget a_flag a'); try contradiction.
      - now apply rp_truthy.
      - now constructor. }
    intros w2 b b' E2 ->. destruct (_ && _); [constructor|]. destruct (existsb _ _); [constructor|].
    apply rp_put; [split; eauto using rloc_ext|]. split; [reflexivity|]. apply rattrs_dset; eauto using rattrs_ext, rattr_ext, ext_trans.
  Qed.
  Lemma rown_ext n w w' a b : ext w w' -> rown n w a b -> rown n w' a b.
  Proof. intros E [H1 H2]. split; eauto using rloc_ext. Qed.
  Lemma rown_rloc n w a b : rown n w a b -> rloc w a b.
  Proof. now intros []. Qed.
End Relation.
