(** * Facts about results, lists and dictionaries. *)
From Verif Require Import Base.

Lemma bind_ok {A B} (r : res A) (f : A -> res B) b :
  bind r f = Ok b <-> exists a, r = Ok a /\ f a = Ok b.
Proof.
  destruct r as [a|e]; simpl; split.
  - eauto.
  - intros (a' & Ha & Hf). congruence.
  - discriminate.
  - intros (a' & Ha & Hf). congruence.
Qed.
Lemma guard_ok b e u : guard b e = Ok u <-> b = true.
Proof. destruct b, u; simpl; split; congruence. Qed.
Lemma guard_true b e : b = true -> guard b e = Ok tt.
Proof. now intros ->. Qed.
Lemma rewrap_ok {A} e (r : res A) a : rewrap e r = Ok a <-> r = Ok a.
Proof. destruct r; simpl; split; congruence. Qed.
Lemma rewrap_err {A} e (r : res A) e' : rewrap e r = Err e' -> e' = e.
Proof. destruct r; simpl; congruence. Qed.
Lemma is_ok_true {A} (r : res A) : is_ok r = true <-> exists a, r = Ok a.
Proof. destruct r; simpl; split; try congruence; eauto. intros [a H]; discriminate. Qed.

Ltac inv_bind H :=
  let a := fresh "a" in let E := fresh "E" in
  apply bind_ok in H; destruct H as (a & E & H).

Lemma mapM_ok_length {A B} (f : A -> res B) l l' : mapM f l = Ok l' -> length l' = length l.
Proof.
  revert l'; induction l as [|x l IH]; intros l' H; simpl in H.
  - inversion H; reflexivity.
  - inv_bind H. inv_bind H. inversion H; subst; simpl. f_equal; eauto.
Qed.
Lemma mapM_ok_iff {A B} (f : A -> res B) l l' :
  mapM f l = Ok l' <-> Forall2 (fun x y => f x = Ok y) l l'.
Proof.
  revert l'; induction l as [|x l IH]; intros l'; simpl; split; intros H.
  - inversion H; constructor.
  - inversion H; reflexivity.
  - inv_bind H. inv_bind H. inversion H; subst. constructor; [assumption|]. now apply IH.
  - inversion H as [|? y ? ys Hxy Hr]; subst. rewrite Hxy; cbn [bind].
    apply IH in Hr. rewrite Hr. reflexivity.
Qed.
Lemma mapM_pure {A B} (f : A -> res B) g l :
  (forall x, In x l -> f x = Ok (g x)) -> mapM f l = Ok (map g l).
Proof.
  induction l as [|x l IH]; intros H; simpl; [reflexivity|].
  rewrite H by (left; reflexivity). cbn [bind]. rewrite IH; [reflexivity|].
  intros y Hy; apply H; now right.
Qed.
Lemma mapM2_ok_iff {A B C} (f : A -> B -> res C) l1 l2 l3 :
  length l1 = length l2 ->
  mapM2 f l1 l2 = Ok l3 <->
  length l3 = length l1 /\
  forall i x y, nth_error l1 i = Some x -> nth_error l2 i = Some y ->
    exists z, f x y = Ok z /\ nth_error l3 i = Some z.
Proof.
  revert l2 l3; induction l1 as [|x l1 IH]; intros [|y l2] l3 Hlen; simpl in *; try discriminate.
  - split.
    + intros H; inversion H; subst. split; [reflexivity|]. intros [|i] ? ? H1; discriminate.
    + intros [H _]. destruct l3; [reflexivity|discriminate].
  - injection Hlen as Hlen. split.
    + intros H. inv_bind H. inv_bind H. inversion H; subst.
      apply IH in E0; [|assumption]. destruct E0 as [Hl Hn]. split; [simpl; congruence|].
      intros [|i] x' y' Hx Hy; simpl in *.
      * inversion Hx; inversion Hy; subst. eauto.
      * eauto.
    + intros [Hl Hn]. destruct l3 as [|z l3]; [discriminate|].
      destruct (Hn 0 x y eq_refl eq_refl) as (z' & Hz & Hz'). simpl in Hz'.
      inversion Hz'; subst z'. rewrite Hz; cbn [bind].
      assert (mapM2 f l1 l2 = Ok l3) as ->; [|reflexivity].
      apply IH; [assumption|]. split; [simpl in Hl; congruence|].
      intros i x' y' Hx Hy. exact (Hn (S i) x' y' Hx Hy).
Qed.
Lemma mapM2_length {A B C} (f : A -> B -> res C) l1 l2 l3 :
  mapM2 f l1 l2 = Ok l3 -> length l3 = Nat.min (length l1) (length l2).
Proof.
  revert l2 l3; induction l1 as [|x l1 IH]; intros [|y l2] l3 H; simpl in *;
    try (inversion H; reflexivity).
  inv_bind H. inv_bind H. inversion H; subst; simpl. f_equal; eauto.
Qed.
(** If every pair succeeds, so does the loop. *)
Lemma mapM2_total {A B C} (f : A -> B -> res C) l1 l2 :
  (forall i x y, nth_error l1 i = Some x -> nth_error l2 i = Some y -> exists z, f x y = Ok z) ->
  exists l3, mapM2 f l1 l2 = Ok l3.
Proof.
  revert l2; induction l1 as [|x l1 IH]; intros [|y l2] H; simpl; eauto.
  destruct (H 0 x y eq_refl eq_refl) as [z Hz]. rewrite Hz; cbn [bind].
  destruct (IH l2) as [l3 Hl3].
  - intros i x' y' Hx Hy. exact (H (S i) x' y' Hx Hy).
  - rewrite Hl3. eexists; reflexivity.
Qed.
Lemma mapM2_some {A B C} (f : A -> B -> res C) l1 l2 l3 i x y :
  mapM2 f l1 l2 = Ok l3 -> nth_error l1 i = Some x -> nth_error l2 i = Some y ->
  exists z, f x y = Ok z /\ nth_error l3 i = Some z.
Proof.
  revert l2 l3 i; induction l1 as [|a l1 IH]; intros [|b l2] l3 [|i] H Hx Hy; simpl in *;
    try discriminate; inv_bind H; inv_bind H; inversion H; subst; simpl.
  - inversion Hx; inversion Hy; subst; eauto.
  - eauto.
Qed.

(** ** Dictionaries *)
Lemma dget_In {V} k v (d : dict V) : dget k d = Some v -> In (k, v) d.
Proof.
  induction d as [|[k' v'] d IH]; simpl; [discriminate|].
  destruct (String.eqb_spec k k') as [->|]; [intros [= ->]; now left|]. intros H; right; auto.
Qed.
Lemma dget_keys {V} k (d : dict V) : In k (dkeys d) <-> exists v, dget k d = Some v.
Proof.
  unfold dkeys. induction d as [|[k' v'] d IH]; simpl.
  - split; [tauto|]. intros [v H]; discriminate.
  - destruct (String.eqb_spec k k') as [->|Hk].
    + split; eauto.
    + rewrite <- IH. split; [intros [H|H]; [congruence|exact H]|tauto].
Qed.
Lemma dget_none {V} k (d : dict V) : dget k d = None <-> ~ In k (dkeys d).
Proof.
  rewrite dget_keys. destruct (dget k d); split; try congruence.
  - intros H; exfalso; apply H; eauto.
  - intros _ [v H]; discriminate.
Qed.
Lemma dmem_In {V} k (d : dict V) : dmem k d = true <-> In k (dkeys d).
Proof.
  unfold dmem. rewrite dget_keys. destruct (dget k d); split; try congruence; eauto.
  intros [v H]; discriminate.
Qed.
Lemma dmem_false {V} k (d : dict V) : dmem k d = false <-> dget k d = None.
Proof. unfold dmem; destruct (dget k d); split; congruence. Qed.
Lemma dget_nodup {V} k v (d : dict V) : NoDup (dkeys d) -> In (k, v) d -> dget k d = Some v.
Proof.
  unfold dkeys. induction d as [|[k' v'] d IH]; simpl; [tauto|].
  intros Hn [H|H]; inversion Hn as [|? ? Hni Hn']; subst.
  - inversion H; subst. now rewrite String.eqb_refl.
  - destruct (String.eqb_spec k k') as [->|]; [|auto].
    exfalso; apply Hni. change k' with (fst (k', v)). now apply in_map.
Qed.
Lemma dget_dset {V} k k' v (d : dict V) :
  dget k (dset k' v d) = if String.eqb k k' then Some v else dget k d.
Proof.
  induction d as [|[k1 v1] d IH]; simpl; [reflexivity|].
  destruct (String.eqb_spec k' k1) as [->|H1]; simpl.
  - destruct (String.eqb_spec k k1); reflexivity.
  - rewrite IH. destruct (String.eqb_spec k k1) as [->|H2]; [|reflexivity].
    destruct (String.eqb_spec k1 k'); [congruence|reflexivity].
Qed.
Lemma dget_dset_eq {V} k v (d : dict V) : dget k (dset k v d) = Some v.
Proof. rewrite dget_dset, String.eqb_refl. reflexivity. Qed.
Lemma dget_dset_neq {V} k k' v (d : dict V) : k <> k' -> dget k (dset k' v d) = dget k d.
Proof. intros H; rewrite dget_dset. destruct (String.eqb_spec k k'); congruence. Qed.
Lemma dkeys_dset_in {V} k v (d : dict V) : In k (dkeys d) -> dkeys (dset k v d) = dkeys d.
Proof.
  unfold dkeys. induction d as [|[k1 v1] d IH]; simpl; [tauto|].
  intros H. destruct (String.eqb_spec k k1) as [->|Hk]; simpl; [reflexivity|].
  f_equal. apply IH. destruct H; [congruence|assumption].
Qed.
Lemma dkeys_dset_notin {V} k v (d : dict V) : ~ In k (dkeys d) -> dkeys (dset k v d) = dkeys d ++ [k].
Proof.
  unfold dkeys. induction d as [|[k1 v1] d IH]; simpl; [reflexivity|].
  intros H. destruct (String.eqb_spec k k1) as [->|Hk]; simpl; [tauto|].
  f_equal. apply IH. tauto.
Qed.
Lemma In_dkeys_dset {V} k k' v (d : dict V) : In k (dkeys (dset k' v d)) <-> k = k' \/ In k (dkeys d).
Proof.
  rewrite !dget_keys. setoid_rewrite dget_dset.
  destruct (String.eqb_spec k k') as [->|H]; split; eauto; intros [H'|H']; eauto; congruence.
Qed.
Lemma NoDup_dset {V} k v (d : dict V) : NoDup (dkeys d) -> NoDup (dkeys (dset k v d)).
Proof.
  intros H. destruct (in_dec string_dec k (dkeys d)) as [Hi|Hi].
  - now rewrite dkeys_dset_in.
  - rewrite dkeys_dset_notin by assumption. apply NoDup_rev in H. apply NoDup_rev in H.
    rewrite rev_involutive in H. apply (NoDup_Add (a := k) (l := dkeys d)).
    + rewrite <- (app_nil_r (dkeys d)) at 1. apply Add_app.
    + split; assumption.
Qed.
Lemma dset_same_get {V} k v (d : dict V) : NoDup (dkeys d) -> dget k d = Some v -> dset k v d = d.
Proof.
  unfold dkeys. induction d as [|[k1 v1] d IH]; simpl; [discriminate|].
  intros Hn. inversion Hn; subst. destruct (String.eqb_spec k k1) as [->|]; [congruence|].
  intros H. f_equal. auto.
Qed.
Lemma ddel_notin {V} k (d : dict V) : dget k d = None -> ddel k d = d.
Proof.
  induction d as [|[k1 v1] d IH]; simpl; [reflexivity|].
  destruct (String.eqb_spec k k1); [discriminate|]. intros H; now rewrite IH.
Qed.
Lemma dkeys_ddel_incl {V} k k' (d : dict V) : In k (dkeys (ddel k' d)) -> In k (dkeys d).
Proof.
  unfold dkeys. induction d as [|[k1 v1] d IH]; simpl; [tauto|].
  destruct (String.eqb_spec k' k1); simpl; tauto.
Qed.
Lemma NoDup_ddel {V} k (d : dict V) : NoDup (dkeys d) -> NoDup (dkeys (ddel k d)).
Proof.
  induction d as [|[k1 v1] d IH]; simpl; intros H; [constructor|].
  inversion H as [|? ? Hni Hn]; subst. destruct (String.eqb_spec k k1); [assumption|].
  simpl. constructor; [|auto]. intros Hin. apply Hni. now apply dkeys_ddel_incl in Hin.
Qed.
Lemma dget_ddel {V} k k' (d : dict V) : NoDup (dkeys d) ->
  dget k (ddel k' d) = if String.eqb k k' then None else dget k d.
Proof.
  unfold dkeys. induction d as [|[k1 v1] d IH]; simpl; intros H.
  - destruct (String.eqb k k'); reflexivity.
  - inversion H as [|? ? Hni Hn]; subst.
    destruct (String.eqb_spec k' k1) as [->|H1]; simpl.
    + destruct (String.eqb_spec k k1) as [->|H2]; [|reflexivity]. now apply dget_none.
    + rewrite IH by assumption.
      destruct (String.eqb_spec k k1) as [->|H2]; [|reflexivity].
      destruct (String.eqb_spec k1 k'); [congruence|reflexivity].
Qed.
Lemma dlookup_ok {V} k (d : dict V) v : dlookup k d = Ok v <-> dget k d = Some v.
Proof. unfold dlookup; destruct (dget k d); split; congruence. Qed.
Lemma dmapM_keys {V W} (f : V -> res W) d d' : dmapM f d = Ok d' -> dkeys d' = dkeys d.
Proof.
  unfold dkeys. revert d'; induction d as [|[k v] d IH]; intros d' H; simpl in H.
  - inversion H; reflexivity.
  - inv_bind H. inv_bind H. inversion H; subst; simpl. f_equal; auto.
Qed.
Lemma dmapM_get {V W} (f : V -> res W) d d' k :
  dmapM f d = Ok d' ->
  match dget k d, dget k d' with
  | Some v, Some w => f v = Ok w
  | None, None => True
  | _, _ => False
  end.
Proof.
  revert d'; induction d as [|[k1 v] d IH]; intros d' H; simpl in H.
  - inversion H; subst; simpl; exact I.
  - inv_bind H. inv_bind H. inversion H; subst; simpl.
    destruct (String.eqb_spec k k1); [assumption|]. exact (IH _ E0).
Qed.
Lemma dmapM_total {V W} (f : V -> res W) d :
  (forall k v, In (k, v) d -> exists w, f v = Ok w) -> exists d', dmapM f d = Ok d'.
Proof.
  induction d as [|[k v] d IH]; intros H; simpl; [eauto|].
  destruct (H k v) as [w Hw]; [now left|]. rewrite Hw; cbn [bind].
  destruct IH as [d' Hd']; [intros k' v' Hi; apply (H k'); now right|].
  rewrite Hd'. eexists; reflexivity.
Qed.
Lemma dict_ext {V} (d1 d2 : dict V) :
  dkeys d1 = dkeys d2 -> NoDup (dkeys d1) -> (forall k, dget k d1 = dget k d2) -> d1 = d2.
Proof.
  unfold dkeys. revert d2; induction d1 as [|[k v] d1 IH]; intros [|[k' v'] d2] Hk Hn He;
    simpl in *; try discriminate; [reflexivity|].
  injection Hk as Ek Hk. subst k'. inversion Hn as [|? ? Hni Hn']; subst.
  assert (v = v') as ->.
  { specialize (He k). rewrite String.eqb_refl in He. congruence. }
  f_equal. apply IH; [assumption|assumption|]. intros k0.
  specialize (He k0). destruct (String.eqb_spec k0 k) as [E0|E0]; [|assumption]. rewrite E0.
  transitivity (@None V); [|symmetry]; apply dget_none; [assumption|].
  unfold dkeys. now rewrite <- Hk.
Qed.

Lemma nth_error_ext {A} (l1 l2 : list A) :
  (forall i, nth_error l1 i = nth_error l2 i) -> l1 = l2.
Proof.
  revert l2; induction l1 as [|x l1 IH]; intros [|y l2] H; [reflexivity|..].
  - specialize (H 0); discriminate.
  - specialize (H 0); discriminate.
  - pose proof (H 0) as H0. simpl in H0. inversion H0; subst. f_equal. apply IH.
    intros i. exact (H (S i)).
Qed.
Lemma nth_error_lt {A} (l : list A) i : i < length l -> exists x, nth_error l i = Some x.
Proof.
  intros H. destruct (nth_error l i) eqn:E; [eauto|]. apply nth_error_None in E. lia.
Qed.
Lemma nth_error_some_lt {A} (l : list A) i x : nth_error l i = Some x -> i < length l.
Proof. intros H; apply nth_error_Some; congruence. Qed.
Lemma nth_error_same_length {A B} (l1 : list A) (l2 : list B) i x :
  length l1 = length l2 -> nth_error l1 i = Some x -> exists y, nth_error l2 i = Some y.
Proof. intros Hl H. apply nth_error_lt. rewrite <- Hl. now apply nth_error_some_lt in H. Qed.
