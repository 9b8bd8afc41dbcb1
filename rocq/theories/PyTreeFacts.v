(** * Facts about pytrees. *)
From Verif Require Import Base PyTree BaseFacts.

Lemma leaves_tmap {A B} (f : A -> B) t : leaves (tmap f t) = map f (leaves t).
Proof.
  induction t as [l|n cs IH] using tree_ind'; [reflexivity|]. simpl.
  induction IH as [|c cs Hc Hcs IH]; simpl; [reflexivity|].
  rewrite map_app, Hc, IH. reflexivity.
Qed.
Lemma structure_tmap {A B} (f : A -> B) t : structure (tmap f t) = structure t.
Proof.
  unfold structure. induction t as [l|n cs IH] using tree_ind'; [reflexivity|]. simpl. f_equal.
  rewrite map_map. induction IH as [|c cs Hc Hcs IH]; simpl; [reflexivity|]. congruence.
Qed.
Lemma structure_Node {A} n (cs : list (tree A)) : structure (Node n cs) = Node n (map structure cs).
Proof. reflexivity. Qed.
Lemma leaves_structure {A} (t : tree A) : leaves (structure t) = map (fun _ => tt) (leaves t).
Proof. apply leaves_tmap. Qed.
Lemma length_leaves_structure {A} (t : tree A) : length (leaves (structure t)) = length (leaves t).
Proof. now rewrite leaves_structure, map_length. Qed.
Lemma structure_eq_length {A B} (t1 : tree A) (t2 : tree B) :
  structure t1 = structure t2 -> length (leaves t1) = length (leaves t2).
Proof. intros H. rewrite <- length_leaves_structure, H. apply length_leaves_structure. Qed.

Definition unflatten_list {L} : list treedef -> list L -> res (list (tree L) * list L) :=
  fix go (cs : list treedef) (q : list L) : res (list (tree L) * list L) :=
    match cs with
    | [] => Ok ([], q)
    | c :: cs0 =>
        '(t, q1) <- unflatten_aux c q ;;
        '(ts, q2) <- go cs0 q1 ;;
        Ok (t :: ts, q2)
    end.
Lemma unflatten_aux_Node {L} n cs (q : list L) :
  unflatten_aux (Node n cs) q = ('(cs', q') <- unflatten_list cs q ;; Ok (Node n cs', q')).
Proof. reflexivity. Qed.

Lemma unflatten_aux_ok {L} (td : treedef) (ls q : list L) :
  length ls = length (leaves td) ->
  exists t, unflatten_aux td (ls ++ q) = Ok (t, q) /\ leaves t = ls /\ structure t = td.
Proof.
  revert ls q. induction td as [u|n cs IH] using tree_ind'; intros ls q Hl.
  - destruct u. destruct ls as [|x [|]]; try discriminate. simpl. eexists; repeat split.
  - rewrite unflatten_aux_Node.
    assert (H : exists ts, unflatten_list cs (ls ++ q) = Ok (ts, q) /\ flat_map leaves ts = ls
                           /\ map structure ts = cs).
    { simpl in Hl. revert ls q Hl. induction IH as [|c cs Hc Hcs IH]; intros ls q Hl; simpl in Hl.
      - destruct ls; [|discriminate]. exists []; simpl; auto.
      - rewrite app_length in Hl.
        set (k := length (leaves c)) in *.
        assert (E : ls = firstn k ls ++ skipn k ls) by (symmetry; apply firstn_skipn).
        assert (Hk : length (firstn k ls) = k) by (rewrite firstn_length; lia).
        destruct (Hc (firstn k ls) (skipn k ls ++ q) Hk) as (t & Ht & Hlv & Hst).
        destruct (IH (skipn k ls) q) as (ts & Hts & Hlv' & Hst').
        { rewrite skipn_length. lia. }
        exists (t :: ts). cbn [unflatten_list]. rewrite E at 1. rewrite <- app_assoc, Ht.
        cbn [bind]. fold (@unflatten_list L). rewrite Hts. cbn [bind flat_map map].
        rewrite Hlv, Hlv', Hst, Hst', firstn_skipn. auto. }
    destruct H as (ts & Hts & Hlv & Hst). rewrite Hts. cbn [bind].
    eexists; split; [reflexivity|]. split; [exact Hlv|]. rewrite structure_Node. now rewrite Hst.
Qed.

Lemma unflatten_ok {L} (td : treedef) (ls : list L) :
  length ls = length (leaves td) ->
  exists t, unflatten td ls = Ok t /\ leaves t = ls /\ structure t = td.
Proof.
  intros Hl. destruct (unflatten_aux_ok td ls [] Hl) as (t & Ht & Hlv & Hst).
  rewrite app_nil_r in Ht. exists t. unfold unflatten. rewrite Ht. auto.
Qed.

Lemma tree_ext {A} (t1 t2 : tree A) :
  structure t1 = structure t2 -> leaves t1 = leaves t2 -> t1 = t2.
Proof.
  revert t2. induction t1 as [l|n cs IH] using tree_ind'; intros [l'|n' cs'] Hs Hl.
  - simpl in Hl. congruence.
  - discriminate.
  - discriminate.
  - rewrite !structure_Node in Hs. injection Hs as -> Hs. f_equal. simpl in Hl.
    revert cs' Hs Hl. induction IH as [|c cs Hc Hcs IH]; intros [|c' cs'] Hs Hl;
      simpl in *; try discriminate; [reflexivity|].
    injection Hs as Hs1 Hs2.
    assert (Hlen : length (leaves c) = length (leaves c')) by now apply structure_eq_length.
    assert (leaves c = leaves c' /\ flat_map leaves cs = flat_map leaves cs') as [E1 E2].
    { clear -Hl Hlen. revert Hl Hlen. generalize (leaves c) (leaves c').
      induction l as [|x l IHl]; intros [|y l'] Hl Hlen; simpl in *; try discriminate; auto.
      injection Hl as -> Hl. injection Hlen as Hlen. destruct (IHl l' Hl Hlen). split; congruence. }
    f_equal; auto.
Qed.

Lemma unflatten_leaves {A} (t : tree A) : unflatten (structure t) (leaves t) = Ok t.
Proof.
  destruct (unflatten_ok (structure t) (leaves t)) as (t' & Ht & Hl & Hs).
  - symmetry; apply length_leaves_structure.
  - rewrite Ht. f_equal. now apply tree_ext.
Qed.
(** Whatever [unflatten] returns has the requested structure and leaves. *)
Lemma unflatten_aux_inv {L} (td : treedef) (q : list L) t q' :
  unflatten_aux td q = Ok (t, q') -> structure t = td /\ q = leaves t ++ q'.
Proof.
  revert q t q'. induction td as [u|n cs IH] using tree_ind'; intros q t q' H.
  - destruct u. simpl in H. destruct q; [discriminate|]. inversion H; subst. simpl. auto.
  - rewrite unflatten_aux_Node in H. inv_bind H. destruct a as [ts q2]. inversion H; subst.
    assert (Hx : map structure ts = cs /\ q = flat_map leaves ts ++ q').
    { clear H. revert q ts q' E. induction IH as [|c cs Hc Hcs IH]; intros q ts q' E.
      - inversion E; subst. simpl. auto.
      - cbn [unflatten_list] in E. inv_bind E. destruct a as [t1 q1]. fold (@unflatten_list L) in E.
        inv_bind E. destruct a as [ts1 q3]. inversion E; subst.
        apply Hc in E0. apply IH in E1. destruct E0 as [E0a E0b], E1 as [E1a E1b].
        subst q q1. cbn [map flat_map]. rewrite E0a, E1a, app_assoc. auto. }
    destruct Hx as [Hx Hy]. rewrite structure_Node, Hx. auto.
Qed.
Lemma unflatten_inv {L} (td : treedef) (ls : list L) t :
  unflatten td ls = Ok t -> structure t = td /\ leaves t = ls.
Proof.
  unfold unflatten. intros H. inv_bind H. destruct a as [t' q']. destruct q'; [|discriminate].
  inversion H; subst. apply unflatten_aux_inv in E. rewrite app_nil_r in E. intuition congruence.
Qed.
Lemma unflatten_err_length {L} (td : treedef) (ls : list L) e :
  unflatten td ls = Err e -> length ls <> length (leaves td).
Proof.
  intros H Hl. destruct (unflatten_ok td ls Hl) as (t & Ht & _). congruence.
Qed.

Lemma td_eqb_eq (a b : treedef) : td_eqb a b = true <-> a = b.
Proof.
  revert b. induction a as [u|n cs IH] using tree_ind'; intros [u'|m ds].
  - destruct u, u'; simpl; tauto.
  - simpl; split; discriminate.
  - simpl; split; discriminate.
  - simpl. rewrite andb_true_iff.
    assert (H : (fix go (cs ds : list treedef) : bool :=
         match cs, ds with
         | [], [] => true
         | c :: cs', d :: ds' => td_eqb c d && go cs' ds'
         | _, _ => false
         end) cs ds = true <-> cs = ds).
    { revert ds. induction IH as [|c cs Hc Hcs IH]; intros [|d ds]; try (split; congruence).
      rewrite andb_true_iff, Hc, IH. split; [intros [-> ->]; reflexivity|]. intros [= -> ->]; auto. }
    rewrite H. destruct (node_eq_dec n m); split; intros; intuition congruence.
Qed.

Lemma tree_mapM_ok {A B} (f : A -> res B) t t' :
  tree_mapM f t = Ok t' <->
  structure t' = structure t /\ Forall2 (fun x y => f x = Ok y) (leaves t) (leaves t').
Proof.
  unfold tree_mapM. split.
  - intros H. inv_bind H. apply mapM_ok_iff in E. apply unflatten_inv in H as [Hs Hl].
    split; [assumption|]. now rewrite Hl.
  - intros [Hs Hf]. apply mapM_ok_iff in Hf. rewrite Hf. cbn [bind].
    rewrite <- Hs. apply unflatten_leaves.
Qed.
Lemma tree_mapM_total {A B} (f : A -> res B) t :
  (forall x, In x (leaves t) -> exists y, f x = Ok y) -> exists t', tree_mapM f t = Ok t'.
Proof.
  intros H. unfold tree_mapM.
  assert (Hm : exists ls, mapM f (leaves t) = Ok ls).
  { induction (leaves t) as [|x l IH]; simpl; [eauto|].
    destruct (H x) as [y Hy]; [now left|]. rewrite Hy; cbn [bind].
    destruct IH as [ls Hls]; [intros z Hz; apply H; now right|]. rewrite Hls; eexists; reflexivity. }
  destruct Hm as [ls Hls]. rewrite Hls; cbn [bind].
  apply mapM_ok_length in Hls.
  destruct (unflatten_ok (structure t) ls) as (t' & Ht & _); [|eauto].
  rewrite Hls. symmetry. apply length_leaves_structure.
Qed.
Lemma is_none_structure {A B} (t1 : tree A) (t2 : tree B) :
  structure t1 = structure t2 -> is_none t1 = is_none t2.
Proof.
  destruct t1 as [|n1 c1], t2 as [|n2 c2]; try discriminate; [reflexivity|].
  rewrite !structure_Node. intros [= -> _]. reflexivity.
Qed.
