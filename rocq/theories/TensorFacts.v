(** * Facts about tensors and broadcasting. *)
From Verif Require Import Base Tensor.

Lemma shape_eqb_eq a b : shape_eqb a b = true <-> a = b.
Proof. unfold shape_eqb. destruct (shape_eq_dec a b); split; congruence. Qed.
Lemma shape_eqb_refl a : shape_eqb a a = true.
Proof. apply shape_eqb_eq; reflexivity. Qed.
Lemma shape_eqb_neq a b : shape_eqb a b = false <-> a <> b.
Proof. unfold shape_eqb. destruct (shape_eq_dec a b); split; congruence. Qed.

Lemma size_app a b : size (a ++ b) = size a * size b.
Proof. unfold size. induction a as [|x a IH]; simpl; [lia|]. rewrite IH. lia. Qed.
Lemma size_cons x a : size (x :: a) = x * size a.
Proof. reflexivity. Qed.
Lemma size_repeat1 n : size (repeat 1 n) = 1.
Proof. induction n as [|n IH]; [reflexivity|]. cbn [repeat]. rewrite size_cons, IH. lia. Qed.
Lemma size_nil : size [] = 1.
Proof. reflexivity. Qed.

(** Each element repeated [k] times. *)
Definition expand {A} (k : nat) (d : list A) : list A := flat_map (fun x => repeat x k) d.

Lemma expand_1 {A} (d : list A) : expand 1 d = d.
Proof. unfold expand. induction d as [|x d IH]; [reflexivity|]. cbn [flat_map]. rewrite IH. reflexivity. Qed.
Lemma expand_length {A} k (d : list A) : length (expand k d) = length d * k.
Proof.
  unfold expand. induction d as [|x d IH]; simpl; [reflexivity|].
  rewrite app_length, repeat_length, IH. reflexivity.
Qed.
Lemma expand_app {A} k (d1 d2 : list A) : expand k (d1 ++ d2) = expand k d1 ++ expand k d2.
Proof. apply flat_map_app. Qed.
Lemma expand_map {A B} (f : A -> B) k d : expand k (map f d) = map f (expand k d).
Proof.
  unfold expand. induction d as [|x d IH]; simpl; [reflexivity|].
  rewrite map_app, IH. f_equal. clear. induction k; simpl; congruence.
Qed.

Lemma nth_error_repeat_lt {A} (x : A) k j : j < k -> nth_error (repeat x k) j = Some x.
Proof.
  revert j; induction k as [|k IH]; intros j Hj; [lia|].
  destruct j as [|j]; simpl; [reflexivity|]. apply IH; lia.
Qed.

Lemma nth_error_expand {A} k (d : list A) j :
  0 < k -> nth_error (expand k d) j = nth_error d (j / k).
Proof.
  intros Hk. revert j. induction d as [|x d IH]; intros j.
  - simpl. destruct j; simpl; destruct (_ / _); reflexivity.
  - change (expand k (x :: d)) with (repeat x k ++ expand k d).
    destruct (Nat.lt_ge_cases j k) as [Hj|Hj].
    + rewrite nth_error_app1 by (rewrite repeat_length; lia).
      rewrite (Nat.div_small j k) by lia. simpl. apply nth_error_repeat_lt; lia.
    + rewrite nth_error_app2 by (rewrite repeat_length; lia).
      rewrite repeat_length, IH.
      replace j with ((j - k) + 1 * k) at 2 by lia.
      rewrite Nat.div_add by lia.
      replace ((j - k) / k + 1) with (S ((j - k) / k)) by lia. reflexivity.
Qed.

Lemma chunks_length {A} k n (d : list A) : length (chunks k n d) = n.
Proof. revert d; induction n as [|n IH]; intros d; simpl; [reflexivity|]. now rewrite IH. Qed.
Lemma chunks_concat {A} k n (d : list A) : length d = n * k -> concat (chunks k n d) = d.
Proof.
  revert d; induction n as [|n IH]; intros d Hd; simpl in *.
  - now destruct d.
  - rewrite IH by (rewrite skipn_length; lia). apply firstn_skipn.
Qed.
Lemma chunks_each {A} k n (d : list A) :
  length d = n * k -> Forall (fun c => length c = k) (chunks k n d).
Proof.
  revert d; induction n as [|n IH]; intros d Hd; simpl in *; [constructor|].
  constructor.
  - rewrite firstn_length. lia.
  - apply IH. rewrite skipn_length. lia.
Qed.

Lemma bcast_go {A} (f : list A -> option (list A)) (g : list A -> list A) cs :
  Forall (fun c => f c = Some (g c)) cs ->
  (fix go (cs : list (list A)) : option (list A) :=
     match cs with
     | [] => Some []
     | c :: cs' => match f c, go cs' with Some x, Some y => Some (x ++ y) | _, _ => None end
     end) cs = Some (concat (map g cs)).
Proof.
  induction 1 as [|c cs Hc Hcs IH]; simpl; [reflexivity|]. now rewrite Hc, IH.
Qed.

Lemma concat_repeat_repeat {A} (x : A) k r : concat (repeat (repeat x k) r) = repeat x (r * k).
Proof.
  induction r as [|r IH]; simpl; [reflexivity|]. rewrite IH.
  now rewrite repeat_app.
Qed.

Lemma concat_map_expand {A} k (cs : list (list A)) : concat (map (expand k) cs) = expand k (concat cs).
Proof.
  induction cs as [|c cs IH]; simpl; [reflexivity|]. now rewrite IH, expand_app.
Qed.

Lemma bcast_ones {A} R (x : A) :
  bcast_same (repeat 1 (length R)) R [x] = Some (repeat x (size R)).
Proof.
  induction R as [|r R IH]; [reflexivity|].
  cbn [length repeat bcast_same]. rewrite size_cons.
  destruct (Nat.eqb_spec 1 r) as [Hr|Hr].
  - subst r. rewrite size_repeat1. simpl. rewrite IH, app_nil_r, Nat.add_0_r. reflexivity.
  - cbn [Nat.eqb]. rewrite IH, concat_repeat_repeat. reflexivity.
Qed.

Lemma bcast_same_expand {A} B R (d : list A) :
  length d = size B ->
  bcast_same (B ++ repeat 1 (length R)) (B ++ R) d = Some (expand (size R) d).
Proof.
  revert d. induction B as [|b B IH]; intros d Hd.
  - simpl in Hd. destruct d as [|x [|]]; try discriminate.
    rewrite !app_nil_l, bcast_ones. simpl. now rewrite app_nil_r.
  - cbn [app bcast_same]. rewrite Nat.eqb_refl.
    rewrite size_app, size_repeat1, Nat.mul_1_r.
    rewrite size_cons in Hd.
    rewrite (bcast_go (bcast_same (B ++ repeat 1 (length R)) (B ++ R)) (expand (size R))).
    + rewrite concat_map_expand, chunks_concat by lia. reflexivity.
    + pose proof (chunks_each (size B) b d ltac:(lia)) as Hc.
      revert Hc. apply Forall_impl. intros c Hc. now apply IH.
Qed.

Lemma bcast_same_id {A} B (d : list A) : length d = size B -> bcast_same B B d = Some d.
Proof.
  intros Hd. pose proof (bcast_same_expand B [] d Hd) as H.
  cbn [length repeat] in H. rewrite !app_nil_r, size_nil, expand_1 in H. exact H.
Qed.

Lemma bshapes_same_refl B : bshapes_same B B = Some B.
Proof. induction B as [|b B IH]; simpl; [reflexivity|]. now rewrite IH, Nat.eqb_refl. Qed.
Lemma bshapes_same_ones R : bshapes_same (repeat 1 (length R)) R = Some R.
Proof.
  induction R as [|r R IH]; [reflexivity|]. cbn [length repeat bshapes_same]. rewrite IH.
  destruct (Nat.eqb_spec 1 r); [subst; reflexivity|]. reflexivity.
Qed.
Lemma bshapes_same_ones_r R : bshapes_same R (repeat 1 (length R)) = Some R.
Proof.
  induction R as [|r R IH]; [reflexivity|]. cbn [length repeat bshapes_same]. rewrite IH.
  destruct (Nat.eqb_spec r 1); [subst; reflexivity|]. reflexivity.
Qed.
Lemma bshapes_same_prefix B R : bshapes_same (B ++ repeat 1 (length R)) (B ++ R) = Some (B ++ R).
Proof.
  induction B as [|b B IH]; [apply bshapes_same_ones|]. cbn [app bshapes_same].
  now rewrite IH, Nat.eqb_refl.
Qed.
Lemma bshapes_same_comm a b : bshapes_same a b = bshapes_same b a.
Proof.
  revert b. induction a as [|x a IH]; intros [|y b]; try reflexivity.
  cbn [bshapes_same]. rewrite IH. destruct (bshapes_same b a); [|reflexivity].
  destruct (Nat.eqb_spec x y) as [->|H]; [now rewrite Nat.eqb_refl|].
  destruct (Nat.eqb_spec y x) as [->|H']; [congruence|].
  destruct (Nat.eqb_spec x 1), (Nat.eqb_spec y 1); subst; congruence.
Qed.
Lemma broadcast_shapes_comm a b : broadcast_shapes a b = broadcast_shapes b a.
Proof. unfold broadcast_shapes. rewrite Nat.max_comm. apply bshapes_same_comm. Qed.

Lemma pad_to_self n sh : length sh = n -> pad_to n sh = sh.
Proof. intros H. unfold pad_to. replace (n - length sh) with 0 by lia. reflexivity. Qed.

(** A batch-shaped tensor that [setup_left_broadcast] made ready for a leaf of shape [B ++ R]:
    either scalar, or padded with trailing ones. *)
Definition lifted (B R sh : list nat) : Prop := sh = B ++ repeat 1 (length R) \/ (B = [] /\ sh = []).

Lemma lifted_pad B R sh : lifted B R sh -> pad_to (length (B ++ R)) sh = B ++ repeat 1 (length R).
Proof.
  unfold pad_to. intros [->|[-> ->]].
  - rewrite !app_length, repeat_length, Nat.sub_diag. reflexivity.
  - simpl. rewrite Nat.sub_0_r, app_nil_r. reflexivity.
Qed.
Lemma lifted_length B R sh : lifted B R sh -> length sh <= length (B ++ R).
Proof.
  intros [->|[-> ->]]; rewrite ?app_length, ?repeat_length; simpl; lia.
Qed.

Lemma lifted_broadcast_to {A} B R (t : tensor A) :
  lifted B R (shape t) -> length (data t) = size B ->
  broadcast_to t (B ++ R) = Ok (mkT (B ++ R) (expand (size R) (data t))).
Proof.
  intros Hl Hd. unfold broadcast_to, ndim.
  pose proof (lifted_length _ _ _ Hl) as Hlen.
  destruct (Nat.leb_spec (length (shape t)) (length (B ++ R))); [|lia].
  pose proof (lifted_pad _ _ _ Hl) as Hp. unfold pad_to in Hp. rewrite Hp.
  now rewrite bcast_same_expand.
Qed.

Lemma broadcast_to_self {A} (t : tensor A) : twf t -> broadcast_to t (shape t) = Ok t.
Proof.
  intros Ht. destruct t as [B d]. simpl. unfold twf in Ht; simpl in Ht.
  pose proof (lifted_broadcast_to B [] (mkT B d)) as H. cbn [shape data] in H.
  rewrite app_nil_r, size_nil, expand_1 in H.
  apply H; [left; simpl; now rewrite app_nil_r|assumption].
Qed.

Lemma lifted_broadcast_shapes B R sh :
  lifted B R sh -> broadcast_shapes sh (B ++ R) = Some (B ++ R).
Proof.
  intros Hl. unfold broadcast_shapes.
  pose proof (lifted_length _ _ _ Hl) as Hlen. rewrite Nat.max_r by assumption.
  rewrite (lifted_pad _ _ _ Hl), pad_to_self by reflexivity. apply bshapes_same_prefix.
Qed.
Lemma broadcast_shapes_refl sh : broadcast_shapes sh sh = Some sh.
Proof.
  unfold broadcast_shapes. rewrite Nat.max_id, pad_to_self by reflexivity. apply bshapes_same_refl.
Qed.

Lemma tbin_same {A B C} (f : A -> B -> C) (x : tensor A) (y : tensor B) :
  twf x -> twf y -> shape x = shape y ->
  tbin f x y = Ok (mkT (shape x) (map2 f (data x) (data y))).
Proof.
  intros Hx Hy Hs. unfold tbin. rewrite <- Hs, broadcast_shapes_refl.
  rewrite (broadcast_to_self x Hx). cbn [bind]. rewrite Hs, (broadcast_to_self y Hy). reflexivity.
Qed.

Lemma tbin_lifted_l {A B C} (f : A -> B -> C) Bs R (x : tensor A) (y : tensor B) :
  lifted Bs R (shape x) -> length (data x) = size Bs -> twf y -> shape y = Bs ++ R ->
  tbin f x y = Ok (mkT (Bs ++ R) (map2 f (expand (size R) (data x)) (data y))).
Proof.
  intros Hl Hd Hy Hs. unfold tbin. rewrite Hs, (lifted_broadcast_shapes _ _ _ Hl).
  rewrite (lifted_broadcast_to _ _ _ Hl Hd). cbn [bind].
  rewrite <- Hs, (broadcast_to_self y Hy). reflexivity.
Qed.
Lemma tbin_lifted_r {A B C} (f : A -> B -> C) Bs R (x : tensor A) (y : tensor B) :
  lifted Bs R (shape y) -> length (data y) = size Bs -> twf x -> shape x = Bs ++ R ->
  tbin f x y = Ok (mkT (Bs ++ R) (map2 f (data x) (expand (size R) (data y)))).
Proof.
  intros Hl Hd Hx Hs. unfold tbin.
  rewrite Hs, broadcast_shapes_comm, (lifted_broadcast_shapes _ _ _ Hl).
  rewrite (lifted_broadcast_to _ _ _ Hl Hd).
  rewrite <- Hs, (broadcast_to_self x Hx). reflexivity.
Qed.

(** map2, sel *)
Lemma map2_length {A B C} (f : A -> B -> C) l1 l2 :
  length (map2 f l1 l2) = Nat.min (length l1) (length l2).
Proof. revert l2; induction l1; intros [|]; simpl; auto. Qed.
Lemma nth_error_map2 {A B C} (f : A -> B -> C) l1 l2 i :
  nth_error (map2 f l1 l2) i =
  match nth_error l1 i, nth_error l2 i with Some x, Some y => Some (f x y) | _, _ => None end.
Proof.
  revert l2 i; induction l1 as [|x l1 IH]; intros [|y l2] [|i]; simpl; auto.
  destruct (nth_error l1 i); reflexivity.
Qed.
Lemma sel_length {A} p (a b : list A) :
  length (sel p a b) = Nat.min (length p) (Nat.min (length a) (length b)).
Proof. revert a b; induction p; intros [|] [|]; simpl; auto. Qed.
Lemma nth_error_sel {A} p (a b : list A) i :
  nth_error (sel p a b) i =
  match nth_error p i, nth_error a i, nth_error b i with
  | Some c, Some x, Some y => Some (if c then x else y)
  | _, _, _ => None
  end.
Proof.
  revert a b i; induction p as [|c p IH]; intros [|x a] [|y b] [|i]; simpl; auto.
  - destruct (nth_error p i); reflexivity.
  - destruct (nth_error p i); reflexivity.
  - destruct (nth_error p i); [|reflexivity]. destruct (nth_error a i); reflexivity.
Qed.

Lemma tselect_same {A} (p : tensor bool) (a b : tensor A) :
  shape a = shape b -> shape p = shape a ->
  tselect p a b = Ok (mkT (shape a) (sel (data p) (data a) (data b))).
Proof.
  intros Hab Hp. unfold tselect. rewrite <- Hab, shape_eqb_refl, Hp, shape_eqb_refl. reflexivity.
Qed.

Lemma twf_map {A B} (f : A -> B) t : twf t -> twf (tensor_map f t).
Proof. unfold twf, tensor_map; simpl. now rewrite map_length. Qed.
Lemma twf_full {A} sh (x : A) : twf (tfull sh x).
Proof. unfold twf, tfull; simpl. now rewrite repeat_length. Qed.
Lemma size_pos_nth {A} B R (d : list A) j x :
  length d = size (B ++ R) -> nth_error d j = Some x -> 0 < size R /\ j / size R < size B.
Proof.
  intros Hd Hn. assert (Hj : j < length d) by (apply nth_error_Some; congruence).
  rewrite Hd, size_app in Hj.
  assert (HR : 0 < size R) by (destruct (size R); lia).
  split; [assumption|]. apply Nat.div_lt_upper_bound; lia.
Qed.
