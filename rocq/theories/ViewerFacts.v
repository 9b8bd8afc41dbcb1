(** * Facts about core/viewer.py. *)
From Coq Require Import QArith Qcanon.
From Verif Require Import Base PyTree Tensor Num Utils States Controller Viewer Wf ViewerSpec.
From Verif Require Import BaseFacts TensorFacts PyTreeFacts ControllerFacts IterateFacts ResetFacts QcFacts.
Close Scope Qc_scope. Close Scope Q_scope. Open Scope nat_scope.

Definition dmap {V W} (f : V -> W) (d : dict V) : dict W := map (fun kv => (fst kv, f (snd kv))) d.
Lemma dget_dmap {V W} (f : V -> W) k d : dget k (dmap f d) = option_map f (dget k d).
Proof. induction d as [|[k' v] d IH]; cbn; [reflexivity|]. destruct (String.eqb k k'); auto. Qed.
Lemma dkeys_dmap {V W} (f : V -> W) d : dkeys (dmap f d) = dkeys d.
Proof. unfold dkeys, dmap. rewrite map_map. reflexivity. Qed.
Lemma dmap_ext {V W} (f g : V -> W) d : (forall k v, In (k, v) d -> f v = g v) -> dmap f d = dmap g d.
Proof. intros H. apply map_ext_in. intros [k v] Hv. cbn. now rewrite (H k v). Qed.
Lemma dmap_dmap {U V W} (f : U -> V) (g : V -> W) d : dmap g (dmap f d) = dmap (fun x => g (f x)) d.
Proof. unfold dmap. rewrite map_map. reflexivity. Qed.
Lemma dmapM_pure {V W} (f : V -> res W) g d :
  (forall k v, In (k, v) d -> f v = Ok (g v)) -> dmapM f d = Ok (dmap g d).
Proof.
  induction d as [|[k v] d IH]; cbn; intros H; [reflexivity|].
  rewrite (H k v (or_introl eq_refl)). cbn. rewrite IH by eauto. reflexivity.
Qed.
Lemma tree_mapM_pure {A B} (f : A -> res B) g t :
  (forall x, In x (leaves t) -> f x = Ok (g x)) -> tree_mapM f t = Ok (tmap g t).
Proof.
  intros H. apply tree_mapM_ok. split; [apply structure_tmap|]. rewrite leaves_tmap.
  induction (leaves t) as [|x l IH]; cbn; constructor; [apply H; now left|]. apply IH. intros; apply H; now right.
Qed.
Lemma tmap_tmap {A B C} (f : A -> B) (g : B -> C) t : tmap g (tmap f t) = tmap (fun x => g (f x)) t.
Proof.
  apply tree_ext; [now rewrite !structure_tmap|]. rewrite !leaves_tmap, map_map. reflexivity.
Qed.
Lemma tmap_ext {A B} (f g : A -> B) t : (forall x, In x (leaves t) -> f x = g x) -> tmap f t = tmap g t.
Proof.
  intros H. apply tree_ext; [now rewrite !structure_tmap|]. rewrite !leaves_tmap. now apply map_ext_in.
Qed.

Section Transform.
  Context {N : numsys}.
  Notation st := (state N).
  Notation tr := (tree (array N)).

  Definition mapped (g : array N -> array N) (s : st) : st :=
    mkState (epsilon s) (g (iterations s)) (g (residuals s)) (g (probabilities s))
      (dmap (tmap g) (defaults s)) (dmap (tmap g) (accumulators s)) (dmap (tmap g) (defaults s))
      (depression_constant s) (error_mode s).

  Lemma in_dict_tensors (d : dict tr) k t x :
    In (k, t) d -> In x (leaves t) -> In x (flat_map (fun kv => leaves (snd kv)) d).
  Proof. intros H1 H2. apply in_flat_map. exists (k, t). auto. Qed.

  Lemma transform_pure (s : st) f g :
    (forall x, In x (tensors s) -> f x = Ok (g x)) -> transform s f = Ok (mapped g s).
  Proof.
    intros H. unfold tensors in H. unfold transform.
    rewrite !H by (cbn [In]; auto). cbn [bind].
    assert (Ha : dmapM (tree_mapM f) (accumulators s) = Ok (dmap (tmap g) (accumulators s))).
    { apply dmapM_pure. intros k t Ht. apply tree_mapM_pure. intros x Hx. apply H.
      do 3 right. apply in_or_app. left. eapply in_dict_tensors; eauto. }
    assert (Hd : dmapM (tree_mapM f) (defaults s) = Ok (dmap (tmap g) (defaults s))).
    { apply dmapM_pure. intros k t Ht. apply tree_mapM_pure. intros x Hx. apply H.
      do 3 right. apply in_or_app. right. eapply in_dict_tensors; eauto. }
    rewrite Ha, Hd. reflexivity.
  Qed.

  Lemma dmapM_tree_inv (f : array N -> res (array N)) (d d' : dict tr) :
    dmapM (tree_mapM f) d = Ok d' ->
    (forall x, In x (flat_map (fun kv => leaves (snd kv)) d) -> exists y, f x = Ok y) /\
    dkeys d' = dkeys d /\
    forall k, match dget k d, dget k d' with
              | Some t, Some t' => tree_rel (fun x y => f x = Ok y) t t'
              | None, None => True
              | _, _ => False
              end.
  Proof.
    intros H. split; [|split].
    - revert d' H. induction d as [|[k t] d IH]; intros d' H x Hx; [contradiction|].
      cbn in H. inv_bind H. inv_bind H. cbn in Hx. apply in_app_or in Hx as [Hx|Hx]; [|eapply IH; eauto].
      apply tree_mapM_ok in E as [_ F]. clear - F Hx. induction F as [|x1 y1 l l' Hxy F IH]; [contradiction|].
      destruct Hx as [->|Hx]; eauto.
    - eapply dmapM_keys; eauto.
    - intros k. pose proof (dmapM_get _ _ _ k H) as G.
      destruct (dget k d), (dget k d'); auto. apply tree_mapM_ok in G. exact G.
  Qed.

  Lemma transform_inv (s s' : st) f :
    transform s f = Ok s' ->
    (forall x, In x (tensors s) -> exists y, f x = Ok y) /\
    viewed (fun x y => f x = Ok y) s s' /\
    dkeys (updates s') = dkeys (defaults s) /\
    forall k, dget k (updates s') = dget k (defaults s').
  Proof.
    unfold transform. intros H. inv_bind H. destruct a as (((((its, ress), probs), accs), dfs), upds).
    rewrite rewrap_ok in E. inv_bind E. inv_bind E. inv_bind E. inv_bind E. inv_bind E. inv_bind E.
    injection E as <- <- <- <- <- <-. cbn in H. injection H as <-.
    apply dmapM_tree_inv in E3 as (T3 & K3 & G3). pose proof E4 as E4'. rewrite E4 in E5. injection E5 as <-.
    apply dmapM_tree_inv in E4 as (T4 & K4 & G4). split; [|split; [|split]].
    - unfold tensors. intros x [<-|[<-|[<-|Hx]]]; eauto. apply in_app_or in Hx as [Hx|Hx]; eauto.
    - constructor; cbn; auto.
      + split; [exact K3|]. intros k t t' H1 H2. specialize (G3 k). now rewrite H1, H2 in G3.
      + split; [exact K4|]. intros k t t' H1 H2. specialize (G4 k). now rewrite H1, H2 in G4.
    - cbn. exact K4.
    - cbn. reflexivity.
  Qed.
  Lemma transform_total (s : st) f :
    (forall x, In x (tensors s) -> exists y, f x = Ok y) -> exists s', transform s f = Ok s'.
  Proof.
    intros H.
    assert (P : exists g : array N -> array N, forall x, In x (tensors s) -> f x = Ok (g x)).
    { exists (fun x => match f x with Ok y => y | Err _ => x end). intros x Hx.
      destruct (H x Hx) as [y ->]. reflexivity. }
    destruct P as [g Hg]. exists (mapped g s). now apply transform_pure.
  Qed.
  Lemma transform_err (s : st) f e : transform s f = Err e -> e = RuntimeError.
  Proof.
    unfold transform. intros H. match type of H with bind ?r _ = _ => destruct r as [x|e'] eqn:E end.
    - destruct x as (((((its, ress), probs), accs), dfs), upds). discriminate H.
    - apply rewrap_err in E. cbn in H. congruence.
  Qed.

  (** ** Masks *)
  Definition mask_fun (B : list nat) (m : list bool) (a : array N) : array N :=
    mkA (a_dt a) (mkT (a_shape a)
      (map2 (fun b v => v_mul N (v_of_bool b) v) (expand (size (skipn (length B) (a_shape a))) m) (a_data a))).
  Lemma mask_leaf_char (m : tensor bool) (a : array N) R :
    twf m -> awf a -> a_shape a = shape m ++ R ->
    mask_leaf m a = Ok (mask_fun (shape m) (data m) a).
  Proof.
    intros Wm Wa Hs. unfold mask_leaf, mask_fun. rewrite Hs.
    destruct (slb_ok m R) as (t' & -> & Hd & Hl). cbn [bind].
    unfold a_bool_mul. rewrite (tbin_lifted_l _ (shape m) R); auto; [|now rewrite Hd].
    cbn [bind]. rewrite Hd. rewrite skipn_app, skipn_all, Nat.sub_diag. reflexivity.
  Qed.

  Lemma wf_tensor (s : st) x : wf s -> In x (tensors s) -> awf x /\ exists R, a_shape x = batch_shape s ++ R.
  Proof.
    intros W. unfold tensors. intros [<-|[<-|[<-|Hx]]].
    - split; [apply W|]. exists []. now rewrite app_nil_r, (wf_i_shape _ W).
    - split; [apply W|]. exists []. now rewrite app_nil_r, (wf_r_shape _ W).
    - split; [apply W|]. exists []. now rewrite app_nil_r.
    - apply in_app_or in Hx as [Hx|Hx]; apply in_flat_map in Hx as ([k t] & Ht & Hx); cbn in Hx.
      + apply dget_nodup in Ht; [|apply W]. pose proof (wf_acc _ W _ _ Ht) as F.
        rewrite Forall_forall in F. destruct (F x Hx) as (A & _ & B). auto.
      + apply dget_nodup in Ht; [|apply W]. assert (Hk : In k (dkeys (accumulators s))).
        { apply (wf_keys_d _ W). apply dget_keys. eauto. }
        apply dget_keys in Hk as [t0 Ht0]. destruct (wf_def _ W _ _ _ Ht0 Ht) as [Al Aw].
        rewrite Forall_forall in Aw. split; [now apply Aw|].
        apply In_nth_error in Hx as [l Hl].
        destruct (nth_error_same_length (leaves t) (leaves t0) l x (eq_sym (alike_len _ _ Al)) Hl) as [a Ha].
        pose proof (alike_nth _ _ _ _ _ Al Ha Hl) as Hsig.
        pose proof (wf_acc _ W _ _ Ht0) as F. destruct (Forall_nth _ _ _ _ F Ha) as (_ & _ & R & HR).
        exists R. unfold sig in Hsig. congruence.
  Qed.

  Theorem mask_ok (s : st) (m : tensor bool) :
    wf s -> twf m -> shape m = batch_shape s ->
    mask_data s DBool m = Ok (mapped (mask_fun (batch_shape s) (data m)) s).
  Proof.
    intros W Wm Hs. unfold mask_data. rewrite dtype_eqb_refl. cbn [guard bind].
    change (a_shape (probabilities s)) with (batch_shape s).
    rewrite (proj2 (shape_eqb_eq _ _) Hs). cbn [guard bind]. apply transform_pure.
    intros x Hx. destruct (wf_tensor s x W Hx) as [Aw [R HR]]. rewrite <- Hs in *.
    now apply (mask_leaf_char m x R).
  Qed.
  Lemma mask_err (s : st) dt (m : tensor bool) :
    dt <> DBool \/ shape m <> batch_shape s -> mask_data s dt m = Err ValueError.
  Proof.
    intros H. unfold mask_data. destruct (dtype_eqb dt DBool) eqn:E; [|reflexivity].
    apply dtype_eqb_eq in E as ->. cbn [guard bind]. destruct H as [H|H]; [contradiction|].
    apply shape_eqb_neq in H. change (a_shape (probabilities s)) with (batch_shape s). rewrite H. reflexivity.
  Qed.

  (** Elementwise effect for any arithmetic. *)
  Lemma mask_fun_sig B m (a : array N) : sig (mask_fun B m a) = sig a.
  Proof. reflexivity. Qed.
  Lemma mask_fun_length B m (a : array N) R :
    awf a -> a_shape a = B ++ R -> length m = size B ->
    length (a_data (mask_fun B m a)) = length (a_data a).
  Proof.
    intros A H Hm. unfold mask_fun, a_data at 1. cbn [a_ten data]. rewrite map2_length, expand_length, Hm, H.
    rewrite skipn_app, skipn_all, Nat.sub_diag. cbn [skipn app]. unfold awf, twf in A. fold (a_data a) (a_shape a) in A.
    rewrite H, size_app in A. lia.
  Qed.
  Lemma mask_fun_nth B m (a : array N) R j v :
    awf a -> a_shape a = B ++ R -> length m = size B -> nth_error (a_data a) j = Some v ->
    exists b, nth_error m (j / size R) = Some b /\
      nth_error (a_data (mask_fun B m a)) j = Some (v_mul N (v_of_bool b) v).
  Proof.
    intros A H Hm Hv. unfold awf, twf in A. fold (a_data a) (a_shape a) in A. rewrite H in A.
    destruct (size_pos_nth B R _ _ _ A Hv) as [Pos Lt].
    destruct (nth_error_lt m (j / size R)) as [b Hb]; [lia|]. exists b. split; [exact Hb|].
    unfold mask_fun, a_data at 1. cbn [a_ten data]. rewrite H, skipn_app, skipn_all, Nat.sub_diag. cbn [skipn app].
    rewrite nth_error_map2, nth_error_expand by exact Pos. now rewrite Hb, Hv.
  Qed.
  Lemma mask_fun_awf B m (a : array N) R :
    awf a -> a_shape a = B ++ R -> length m = size B -> awf (mask_fun B m a).
  Proof.
    intros A H Hm. unfold awf, twf. change (length (a_data (mask_fun B m a)) = size (a_shape a)).
    rewrite (mask_fun_length B m a R A H Hm). exact A.
  Qed.

  (** Relations between a state and a mapped state. *)
  Lemma mapped_viewed (P : array N -> array N -> Prop) g (s : st) :
    (forall x, In x (tensors s) -> P x (g x)) -> viewed P s (mapped g s).
  Proof.
    intros H. unfold tensors in H.
    assert (D : forall d, (forall x, In x (flat_map (fun kv => leaves (snd kv)) d) -> P x (g x)) ->
              dict_rel P d (dmap (tmap g) d)).
    { intros d Hd. split; [apply dkeys_dmap|]. intros k t t' H1 H2. rewrite dget_dmap, H1 in H2.
      cbn [option_map] in H2. assert (E : tmap g t = t') by congruence. subst t'.
      split; [apply structure_tmap|]. rewrite leaves_tmap.
      assert (X : forall x, In x (leaves t) -> P x (g x)).
      { intros x Hx. apply Hd. eapply in_dict_tensors; [|exact Hx]. apply dget_In. exact H1. }
      clear - X. induction (leaves t) as [|x l IH]; constructor; [apply X; now left|]. apply IH. intros; apply X; now right. }
    constructor; cbn; auto; try (apply H; cbn; auto; fail).
    - apply D. intros x Hx. apply H. do 3 right. apply in_or_app. now left.
    - apply D. intros x Hx. apply H. do 3 right. apply in_or_app. now right.
  Qed.
  Lemma mapped_ext g1 g2 (s : st) : (forall x, In x (tensors s) -> g1 x = g2 x) -> mapped g1 s = mapped g2 s.
  Proof.
    intros H. unfold tensors in H. unfold mapped. rewrite !(H _) by (cbn; auto).
    assert (D : forall d, (forall x, In x (flat_map (fun kv => leaves (snd kv)) d) -> g1 x = g2 x) ->
              dmap (tmap g1) d = dmap (tmap g2) d).
    { intros d Hd. apply dmap_ext. intros k t Ht. apply tmap_ext. intros x Hx. apply Hd. eapply in_dict_tensors; eauto. }
    f_equal; apply D; intros x Hx; apply H; do 3 right; apply in_or_app; auto.
  Qed.
  Lemma mapped_mapped g1 g2 (s : st) : mapped g2 (mapped g1 s) = mapped (fun x => g2 (g1 x)) s.
  Proof.
    unfold mapped. cbn [epsilon iterations residuals probabilities defaults accumulators updates depression_constant error_mode mapped]. rewrite !dmap_dmap. f_equal; apply dmap_ext; intros; apply tmap_tmap.
  Qed.
  Lemma mapped_wf g (s : st) :
    wf s -> (forall x, In x (tensors s) -> sig (g x) = sig x /\ awf (g x)) -> wf (mapped g s).
  Proof.
    intros W H.
    assert (Bs : batch_shape (mapped g s) = batch_shape s).
    { unfold batch_shape. cbn. destruct (H (probabilities s)) as [E _]; [cbn; auto|]. unfold sig in E. congruence. }
    pose proof (H (probabilities s) ltac:(cbn; auto)) as [P1 P2].
    pose proof (H (residuals s) ltac:(cbn; auto)) as [R1 R2].
    pose proof (H (iterations s) ltac:(cbn; auto)) as [I1 I2]. unfold sig in P1, R1, I1.
    assert (Tl : forall t, (forall x, In x (leaves t) -> sig (g x) = sig x /\ awf (g x)) ->
                 alike (tmap g t) t /\ Forall awf (leaves (tmap g t))).
    { intros t Ht. split.
      - split; [apply structure_tmap|]. rewrite leaves_tmap, map_map. apply map_ext_in. intros x Hx. now apply Ht.
      - rewrite leaves_tmap. apply Forall_forall. intros y Hy. apply in_map_iff in Hy as (x & <- & Hx). now apply Ht. }
    assert (Ia : forall k t x, dget k (accumulators s) = Some t -> In x (leaves t) -> In x (tensors s)).
    { intros k t x H1 H2. do 3 right. apply in_or_app. left. eapply in_dict_tensors; [|exact H2]. apply dget_In. exact H1. }
    assert (Id : forall k t x, dget k (defaults s) = Some t -> In x (leaves t) -> In x (tensors s)).
    { intros k t x H1 H2. do 3 right. apply in_or_app. right. eapply in_dict_tensors; [|exact H2]. apply dget_In. exact H1. }
    constructor; try (rewrite Bs); cbn [epsilon iterations residuals probabilities defaults accumulators updates depression_constant error_mode mapped]; rewrite ?dkeys_dmap; auto; try apply W.
    - rewrite <- (wf_r_shape _ W). congruence.
    - rewrite <- (wf_i_shape _ W). congruence.
    - replace (a_dt (g (probabilities s))) with (a_dt (probabilities s)) by congruence. apply W.
    - replace (a_dt (g (probabilities s))) with (a_dt (probabilities s)) by congruence.
      replace (a_dt (g (residuals s))) with (a_dt (residuals s)) by congruence. apply W.
    - replace (a_dt (g (iterations s))) with (a_dt (iterations s)) by congruence. apply W.
    - intros k t Ht. rewrite dget_dmap in Ht. destruct (dget k (accumulators s)) as [t0|] eqn:E; [|discriminate].
      cbn in Ht. assert (X : tmap g t0 = t) by congruence. subst t. rewrite leaves_tmap.
      apply Forall_forall. intros y Hy. apply in_map_iff in Hy as (x & <- & Hx).
      pose proof (wf_acc _ W _ _ E) as F. rewrite Forall_forall in F. destruct (F x Hx) as (F1 & F2 & R & F3).
      destruct (H x (Ia _ _ _ E Hx)) as [G1 G2]. unfold sig in G1. split; [exact G2|].
      split; [replace (a_dt (g x)) with (a_dt x) by congruence; exact F2|]. exists R. congruence.
    - intros k t d Ht Hd. rewrite dget_dmap in Ht, Hd.
      destruct (dget k (accumulators s)) as [t0|] eqn:E; [|discriminate].
      destruct (dget k (defaults s)) as [d0|] eqn:E'; [|discriminate].
      cbn in Ht, Hd. assert (X : tmap g t0 = t) by congruence. assert (Y : tmap g d0 = d) by congruence. subst t d.
      destruct (Tl t0) as [A1 A2]; [intros x Hx; apply H; eauto|].
      destruct (Tl d0) as [B1 B2]; [intros x Hx; apply H; eauto|].
      destruct (wf_def _ W _ _ _ E E') as [C1 C2].
      split; [|exact B2]. eapply alike_trans; [exact A1|]. eapply alike_trans; [exact C1|]. now apply alike_sym.
  Qed.
End Transform.

(** ** Exact arithmetic *)
Notation qst := (state QcNum).
Lemma mask_fun_masked (B : list nat) m (a : array QcNum) :
  (exists R, a_shape a = B ++ R) -> awf a -> length m = size B -> masked (N := QcNum) 0%Qc B m a (mask_fun B m a).
Proof.
  intros [R HR] A Hm. split; [reflexivity|]. split; [now apply (mask_fun_length B m a R)|].
  intros R' HR' j v Hv. destruct (mask_fun_nth B m a R' j v A HR' Hm Hv) as (b & Hb & E).
  exists b. split; [exact Hb|]. rewrite E. f_equal. destruct b; cbn; [apply Qcmult_1_l|apply Qcmult_0_l].
Qed.
Lemma mask_fun_mask_fun (B : list nat) m1 m2 (a : array QcNum) :
  (exists R, a_shape a = B ++ R) -> awf a -> length m1 = size B -> length m2 = size B ->
  mask_fun B m2 (mask_fun B m1 a) = mask_fun B (map2 andb m1 m2) a.
Proof.
  intros [R HR] A H1 H2. unfold mask_fun at 1 3. f_equal. f_equal.
  change (a_shape (mask_fun B m1 a)) with (a_shape a).
  unfold mask_fun, a_data at 1. cbn [a_ten data].
  apply nth_error_ext. intros j. rewrite !nth_error_map2.
  rewrite HR, skipn_app, skipn_all, Nat.sub_diag. cbn [skipn app].
  assert (L : length (map2 andb m1 m2) = size B) by (rewrite map2_length; lia).
  destruct (nth_error (a_data a) j) as [v|] eqn:Ev.
  - unfold awf, twf in A. fold (a_data a) (a_shape a) in A. rewrite HR in A.
    destruct (size_pos_nth B R _ _ _ A Ev) as [Pos Lt]. rewrite !nth_error_expand by exact Pos.
    rewrite nth_error_map2.
    destruct (nth_error_lt m1 (j / size R)) as [b1 ->]; [lia|].
    destruct (nth_error_lt m2 (j / size R)) as [b2 ->]; [lia|].
    f_equal. destruct b1, b2; cbn; rewrite ?Qcmult_1_l, ?Qcmult_0_l; reflexivity.
  - repeat (destruct (nth_error _ j); auto).
Qed.
