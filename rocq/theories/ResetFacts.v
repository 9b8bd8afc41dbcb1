(** * [reset_batches] and [cache_update]: success, failure and effect, for every arithmetic. *)
From Verif Require Import Base PyTree Tensor Num Utils States Controller Wf.
From Verif Require Import BaseFacts PyTreeFacts TensorFacts ControllerFacts IterateFacts.

Section Reset.
  Context {N : numsys}.
  Notation st := (state N).
  Notation tr := (tree (array N)).

  Lemma has_cached_false (s : st) : NoDup (dkeys (updates s)) ->
    has_cached_updates s = false <-> idle s.
  Proof.
    intros Hn. unfold has_cached_updates, idle. split.
    - intros H k u Hu. apply dget_In in Hu.
      destruct (is_none u) eqn:E; [reflexivity|]. exfalso.
      assert (Hx : existsb (fun kv : string * tr => negb (is_none (snd kv))) (updates s) = true).
      { apply existsb_exists. exists (k, u). split; [assumption|]. simpl. now rewrite E. }
      congruence.
    - intros H. apply not_true_is_false. intros Hx. apply existsb_exists in Hx as ([k u] & Hin & Hu).
      simpl in Hu. apply dget_nodup in Hin; [|assumption]. rewrite (H k u Hin) in Hu. discriminate.
  Qed.

  Lemma mul_bool_char (s : st) (a : array N) :
    wf s -> awf a -> a_shape a = batch_shape s ->
    a_mul_bool a (tnot (halted_batches s)) =
    Ok (mkA (a_dt a) (mkT (batch_shape s)
          (map2 (fun v p => kept s p v) (a_data a) (a_data (probabilities s))))).
  Proof.
    intros Hw Ha Hs. unfold a_mul_bool. rewrite tbin_same.
    - cbn [bind]. unfold a_shape in Hs. rewrite Hs. do 3 f_equal.
      unfold tnot. cbn [tensor_map data]. rewrite halted_data. unfold a_data.
      generalize (data (a_ten a)) (data (a_ten (probabilities s))).
      induction l as [|x l IH]; intros [|p P]; try reflexivity. cbn [map map2]. f_equal. apply IH.
    - exact Ha.
    - unfold twf, tnot. cbn [tensor_map data shape]. rewrite map_length, halted_shape.
      now apply halted_length.
    - exact Hs.
  Qed.

  Definition reset_data (s : st) (k : nat) (a d : array N) : list (val N) :=
    sel (expand k (map (fun p => negb (halted_at s p)) (a_data (probabilities s)))) (a_data a) (a_data d).

  Lemma reset_leaf_char (s : st) (whole : tr) (a d : array N) R :
    wf s -> awf a -> a_shape a = batch_shape s ++ R -> sig d = sig a ->
    (batch_shape s = [] \/ whole = Leaf a) ->
    reset_leaf (tnot (halted_batches s)) whole a d =
    Ok (mkA (a_dt a) (mkT (a_shape a) (reset_data s (size R) a d))).
  Proof.
    intros Hw Ha HR Hd Hc. unfold reset_leaf.
    injection Hd as Hds Hdd.
    assert (Hl : length (data (tnot (halted_batches s))) = size (batch_shape s)).
    { unfold tnot. cbn [tensor_map data]. rewrite map_length. now apply halted_length. }
    assert (Hx : exists t', setup_left_broadcast_obj (tnot (halted_batches s)) whole = Ok t'
       /\ data t' = data (tnot (halted_batches s)) /\ lifted (batch_shape s) R (shape t')).
    { destruct Hc as [Hb|Hl'].
      - unfold setup_left_broadcast_obj, ndim.
        assert (Hsh : shape (tnot (halted_batches s)) = []) by exact Hb.
        rewrite Hsh. cbn [length Nat.eqb]. eexists. split; [reflexivity|]. split; [reflexivity|].
        right. auto.
      - rewrite Hl'. unfold setup_left_broadcast_obj.
        destruct (slb_ok (tnot (halted_batches s)) R) as (t' & H1 & H2 & H3).
        change (shape (tnot (halted_batches s))) with (batch_shape s) in H1, H3.
        destruct (Nat.eqb (ndim (tnot (halted_batches s))) 0) eqn:E.
        + unfold setup_left_broadcast in H1. rewrite E in H1. inversion H1; subst. eauto.
        + rewrite HR. eauto. }
    destruct Hx as (t' & H1 & H2 & H3). rewrite H1. cbn [bind].
    rewrite HR, (lifted_broadcast_to _ _ _ H3) by (rewrite H2; exact Hl).
    cbn [bind]. unfold a_select. rewrite Hdd, dtype_eqb_refl.
    unfold a_shape in HR, Hds.
    rewrite tselect_same by (cbn [shape]; congruence). cbn [bind data]. rewrite HR, H2.
    unfold reset_data, a_data. do 4 f_equal. f_equal. unfold tnot. cbn [tensor_map data].
    rewrite halted_data, map_map. reflexivity.
  Qed.

  Lemma reset_leaf_fails (s : st) (whole : tr) (a d : array N) :
    batch_shape s <> [] -> (forall x, whole <> Leaf x) ->
    reset_leaf (tnot (halted_batches s)) whole a d = Err AttributeError.
  Proof.
    intros Hb Hl. unfold reset_leaf, setup_left_broadcast_obj, ndim.
    change (shape (tnot (halted_batches s))) with (batch_shape s).
    destruct (batch_shape s) as [|b B]; [congruence|]. cbn [length Nat.eqb].
    destruct whole as [x|]; [|reflexivity]. exfalso. now apply (Hl x).
  Qed.

  Lemma reset_loop_inv (s : st) m names out out' :
    NoDup names -> reset_loop s m names out = Ok out' ->
    (forall k, In k names -> ~ In k (dkeys out)) ->
    dkeys out' = dkeys out ++ names /\
    forall k,
      if in_dec string_dec k names then
        exists acc def new, dget k (accumulators s) = Some acc /\ dget k (defaults s) = Some def
          /\ merge_pytrees (reset_leaf m acc) acc def = Ok new /\ dget k out' = Some new
      else dget k out' = dget k out.
  Proof.
    revert out. induction names as [|n names IH]; intros out Hn H Hd; simpl in H.
    - inversion H; subst. rewrite app_nil_r. split; [reflexivity|]. intros k. reflexivity.
    - inversion Hn as [|? ? Hni Hn']; subst.
      inv_bind H. inv_bind H. inv_bind H. apply dlookup_ok in E. apply dlookup_ok in E0.
      assert (Hno : ~ In n (dkeys out)) by (apply Hd; now left).
      destruct (IH _ Hn' H) as (K1 & Hk).
      { intros k Hk. rewrite dkeys_dset_notin by assumption. rewrite in_app_iff. simpl.
        intros [Hx|[Hx|[]]]; [apply (Hd k); [now right|assumption]|subst; contradiction]. }
      rewrite K1, dkeys_dset_notin by assumption. split; [now rewrite <- app_assoc|].
      intros k. specialize (Hk k).
      destruct (in_dec string_dec k (n :: names)) as [Hin|Hnin].
      + destruct (string_dec k n) as [Hkn|Hkn].
        * subst k. destruct (in_dec string_dec n names) as [|_]; [contradiction|].
          rewrite dget_dset_eq in Hk. eauto 10.
        * destruct (in_dec string_dec k names) as [Hi|Hi];
            [|destruct Hin; [congruence|contradiction]]. exact Hk.
      + destruct (in_dec string_dec k names) as [Hi|Hi]; [exfalso; apply Hnin; now right|].
        rewrite Hk, dget_dset_neq; [reflexivity|]. intros Hx. apply Hnin. now left.
  Qed.
  Lemma reset_loop_total (s : st) m names out :
    (forall k, In k names -> exists acc def new, dget k (accumulators s) = Some acc
       /\ dget k (defaults s) = Some def /\ merge_pytrees (reset_leaf m acc) acc def = Ok new) ->
    exists out', reset_loop s m names out = Ok out'.
  Proof.
    revert out. induction names as [|n names IH]; intros out H; simpl; [eauto|].
    destruct (H n (or_introl eq_refl)) as (acc & def & new & Ha & Hd & Hm).
    unfold dlookup. rewrite Ha, Hd. cbn [bind]. rewrite Hm. cbn [bind].
    apply IH. intros k Hk. apply H. now right.
  Qed.
  Lemma reset_loop_err (s : st) m names out e :
    reset_loop s m names out = Err e ->
    exists k, In k names /\
      (dget k (accumulators s) = None \/ dget k (defaults s) = None \/
       exists acc def, dget k (accumulators s) = Some acc /\ dget k (defaults s) = Some def /\
         merge_pytrees (reset_leaf m acc) acc def = Err e).
  Proof.
    revert out. induction names as [|n names IH]; intros out H; simpl in H; [discriminate|].
    unfold dlookup in H.
    destruct (dget n (accumulators s)) as [acc|] eqn:Ea; cbn [bind] in H.
    2:{ exists n. split; [now left|]. auto. }
    destruct (dget n (defaults s)) as [def|] eqn:Ed; cbn [bind] in H.
    2:{ exists n. split; [now left|]. auto. }
    destruct (merge_pytrees (reset_leaf m acc) acc def) as [new|e'] eqn:Em; cbn [bind] in H.
    - apply IH in H as (k & Hk & Hx). exists k. split; [now right|assumption].
    - exists n. split; [now left|]. right. right. exists acc, def. inversion H; subst. auto.
  Qed.

  Lemma replace_reset (s : st) i r p a :
    replace s (mkR None (Some i) (Some r) (Some p) (Some a) None None None None) =
    Ok (mkState (epsilon s) i r p (defaults s) a (updates s) (depression_constant s) (error_mode s)).
  Proof. reflexivity. Qed.

  Lemma default_of (s : st) k t : wf s -> dget k (accumulators s) = Some t ->
    exists d, dget k (defaults s) = Some d /\ alike t d /\ Forall awf (leaves d).
  Proof.
    intros Hw Ht. assert (Hin : In k (dkeys (defaults s))).
    { apply (wf_keys_d _ Hw). apply dget_keys; eauto. }
    apply dget_keys in Hin as [d Hd]. exists d. split; [assumption|]. eapply wf_def; eauto.
  Qed.

  Lemma alike_nth (t1 t2 : tr) i a b : alike t1 t2 ->
    nth_error (leaves t1) i = Some a -> nth_error (leaves t2) i = Some b -> sig a = sig b.
  Proof.
    intros [_ H] Ha Hb.
    assert (Hx : nth_error (map sig (leaves t1)) i = Some (sig a)) by (rewrite nth_error_map, Ha; reflexivity).
    rewrite H, nth_error_map, Hb in Hx. simpl in Hx. congruence.
  Qed.
  Lemma alike_len (t1 t2 : tr) : alike t1 t2 -> length (leaves t1) = length (leaves t2).
  Proof. intros [H _]. now apply structure_eq_length. Qed.
  Lemma alike_refl (t : tr) : alike t t.
  Proof. split; reflexivity. Qed.
  Lemma alike_sym (t1 t2 : tr) : alike t1 t2 -> alike t2 t1.
  Proof. intros [H1 H2]; split; congruence. Qed.
  Lemma alike_trans (t1 t2 t3 : tr) : alike t1 t2 -> alike t2 t3 -> alike t1 t3.
  Proof. intros [H1 H2] [H3 H4]; split; congruence. Qed.

  Lemma merge_reset_ok (s : st) (t d : tr) :
    wf s -> Forall (leaf_fits (batch_shape s)) (leaves t) -> alike t d ->
    (batch_shape s = [] \/ (exists a, t = Leaf a) \/ leaves t = []) ->
    exists t', merge_pytrees (reset_leaf (tnot (halted_batches s)) t) t d = Ok t'.
  Proof.
    intros Hw Ht Hal Hc. apply merge_total; [now apply alike_len|]. intros i a b Ha Hb.
    destruct (Forall_nth _ _ _ _ Ht Ha) as (Haw & _ & R & HR).
    eexists. apply (reset_leaf_char s t a b R); auto.
    - symmetry. eapply alike_nth; eauto.
    - destruct Hc as [Hc|[[x Hc]|Hc]].
      + now left.
      + right. subst t. destruct i as [|[|i]]; simpl in Ha; try discriminate. congruence.
      + rewrite Hc in Ha. destruct i; discriminate.
  Qed.
  Lemma merge_reset_inv (s : st) (t d t' : tr) :
    wf s -> Forall (leaf_fits (batch_shape s)) (leaves t) -> alike t d -> Forall awf (leaves d) ->
    merge_pytrees (reset_leaf (tnot (halted_batches s)) t) t d = Ok t' ->
    (batch_shape s = [] \/ (exists a, t = Leaf a) \/ leaves t = []) /\
    alike t' t /\ Forall awf (leaves t') /\
    forall l a dl a', nth_error (leaves t) l = Some a -> nth_error (leaves d) l = Some dl ->
      nth_error (leaves t') l = Some a' -> leaf_reset s a dl a'.
  Proof.
    intros Hw Ht Hal Hda Hm. apply merge_ok_iff in Hm as (Hl & Hst & Hf).
    assert (Hl' : length (leaves t') = length (leaves t)) by now apply structure_eq_length.
    assert (Hc : batch_shape s = [] \/ (exists a, t = Leaf a) \/ leaves t = []).
    { destruct (batch_shape s) as [|x B] eqn:EB; [now left|]. right.
      destruct t as [a|n cs]; [left; eauto|]. right.
      destruct (leaves (Node n cs)) as [|a ls] eqn:El; [reflexivity|]. exfalso.
      destruct (nth_error_same_length _ (leaves d) 0 a Hl) as [b Hb].
      { rewrite ?El. reflexivity. }
      destruct (Hf 0 a b) as (z & Hz & _); [rewrite ?El; reflexivity|assumption|].
      rewrite reset_leaf_fails in Hz; [discriminate|congruence|congruence]. }
    assert (K : forall i a b, nth_error (leaves t) i = Some a -> nth_error (leaves d) i = Some b ->
       exists R, a_shape a = batch_shape s ++ R /\ awf a /\ awf b /\ sig b = sig a /\
         nth_error (leaves t') i = Some (mkA (a_dt a) (mkT (a_shape a) (reset_data s (size R) a b)))).
    { intros i a b Ha Hb. destruct (Forall_nth _ _ _ _ Ht Ha) as (Haw & _ & R & HR).
      pose proof (Forall_nth _ _ _ _ Hda Hb) as Hbw. exists R.
      assert (Hsg : sig b = sig a) by (symmetry; eapply alike_nth; eauto).
      destruct (Hf i a b Ha Hb) as (z & Hz & Hzn).
      rewrite (reset_leaf_char s t a b R Hw Haw HR Hsg) in Hz.
      2:{ destruct Hc as [Hc|[[x Hc]|Hc]].
          + now left.
          + right. subst t. destruct i as [|[|i]]; simpl in Ha; try discriminate. congruence.
          + rewrite Hc in Ha. destruct i; discriminate. }
      inversion Hz; subst z. repeat split; auto. }
    split; [exact Hc|]. repeat split.
    - assumption.
    - apply nth_error_ext. intros i. rewrite !nth_error_map.
      destruct (nth_error (leaves t) i) as [a|] eqn:Ea.
      + destruct (nth_error_same_length _ (leaves d) _ _ Hl Ea) as [b Hb].
        destruct (K i a b Ea Hb) as (R & _ & _ & _ & _ & Hx). rewrite Hx. reflexivity.
      + apply nth_error_None in Ea.
        assert (nth_error (leaves t') i = None) as -> by (apply nth_error_None; lia). reflexivity.
    - apply Forall_forall. intros a' Hin. apply In_nth_error in Hin as [i Hi].
      destruct (nth_error_same_length _ (leaves t) _ _ Hl' Hi) as [a Ha].
      destruct (nth_error_same_length _ (leaves d) _ _ Hl Ha) as [b Hb].
      destruct (K i a b Ha Hb) as (R & HR & Haw & Hbw & Hsg & Hi').
      rewrite Hi in Hi'. inversion Hi'; subst a'. unfold awf, twf. cbn [a_ten data shape].
      unfold reset_data. rewrite sel_length, expand_length, map_length, (wf_batch_len _ Hw).
      unfold awf, twf in Haw, Hbw. unfold a_data. rewrite Haw, Hbw.
      injection Hsg as Hs1 _. unfold a_shape in Hs1. rewrite Hs1. fold (a_shape a).
      rewrite HR, size_app, !Nat.min_id. reflexivity.
    - intros l a b a' Ha Hb Ha'. destruct (K l a b Ha Hb) as (R & HR & Haw & Hbw & _ & Hi').
      rewrite Ha' in Hi'. inversion Hi'; subst a'. clear Hi' Ha'.
      intros R' HR' j av dv p Hav Hdv Hp.
      assert (R' = R) by (rewrite HR in HR'; now apply app_inv_head in HR'). subst R'.
      cbn [a_data a_ten data].
      unfold awf, twf in Haw. fold (a_shape a) in Haw. rewrite HR in Haw.
      destruct (size_pos_nth _ _ _ _ _ Haw Hav) as [Hpos _].
      unfold reset_data. rewrite nth_error_sel, nth_error_expand, nth_error_map, Hav, Hdv, Hp by assumption.
      cbn [option_map]. destruct (halted_at s p); reflexivity.
  Qed.

  Theorem reset_ok_iff (s : st) : wf s ->
    (exists s', reset_batches s = Ok s') <-> (idle s /\ resettable s).
  Proof.
    intros Hw. unfold reset_batches. split.
    - intros [s' H]. inv_bind H. apply guard_ok in E. apply negb_true_iff in E.
      apply has_cached_false in E; [|exact (wf_nodup_u _ Hw)]. split; [assumption|].
      cbv zeta in H. inv_bind H. inv_bind H. inv_bind H. inv_bind H.
      apply reset_loop_inv in E3 as [_ Hk]; [|exact (wf_nodup_a _ Hw)|intros ? ? []].
      intros k t Ht. specialize (Hk k). destruct (in_dec _ _ _) as [Hi|Hi].
      2:{ exfalso. apply Hi. apply dget_keys; eauto. }
      destruct Hk as (acc & def & new & H1 & H2 & H3 & H4).
      rewrite Ht in H1. inversion H1; subst acc.
      destruct (wf_def _ Hw _ _ _ Ht H2) as [Hal Hda].
      apply merge_reset_inv in H3 as [Hc _]; auto. exact (wf_acc _ Hw _ _ Ht).
    - intros [Hi Hr]. apply (has_cached_false _ (wf_nodup_u _ Hw)) in Hi. rewrite Hi.
      cbn [negb guard bind]. cbv zeta.
      rewrite (mul_bool_char s _ Hw (wf_i _ Hw) (wf_i_shape _ Hw)). cbn [bind].
      rewrite (mul_bool_char s _ Hw (wf_p _ Hw) eq_refl). cbn [bind].
      rewrite (mul_bool_char s _ Hw (wf_r _ Hw) (wf_r_shape _ Hw)). cbn [bind].
      destruct (reset_loop_total s (tnot (halted_batches s)) (dkeys (accumulators s)) []) as [out Ho].
      { intros k Hk. apply dget_keys in Hk as [t Ht].
        destruct (default_of s k t Hw Ht) as (d & Hd & Hal & Hda).
        destruct (merge_reset_ok s t d Hw (wf_acc _ Hw _ _ Ht) Hal (Hr _ _ Ht)) as [t' Ht'].
        eauto 10. }
      rewrite Ho. cbn [bind]. rewrite replace_reset. eauto.
  Qed.

  (** Failure: RuntimeError while an update is pending, otherwise AttributeError. *)
  Theorem reset_err (s : st) e : wf s -> reset_batches s = Err e ->
    (~ idle s /\ e = RuntimeError) \/ (idle s /\ ~ resettable s /\ e = AttributeError).
  Proof.
    intros Hw H.
    assert (Hno : ~ (idle s /\ resettable s)).
    { intros Hx. apply (reset_ok_iff s Hw) in Hx as [s' Hs']. congruence. }
    unfold reset_batches in H.
    destruct (has_cached_updates s) eqn:E; cbn [negb guard bind] in H.
    - left. split; [|congruence]. intros Hi. apply has_cached_false in Hi; [congruence|exact (wf_nodup_u _ Hw)].
    - right. apply has_cached_false in E; [|exact (wf_nodup_u _ Hw)]. split; [assumption|].
      split; [tauto|]. cbv zeta in H.
      rewrite (mul_bool_char s _ Hw (wf_i _ Hw) (wf_i_shape _ Hw)) in H. cbn [bind] in H.
      rewrite (mul_bool_char s _ Hw (wf_p _ Hw) eq_refl) in H. cbn [bind] in H.
      rewrite (mul_bool_char s _ Hw (wf_r _ Hw) (wf_r_shape _ Hw)) in H. cbn [bind] in H.
      destruct (reset_loop s _ _ _) as [out|e'] eqn:El; cbn [bind] in H.
      + rewrite replace_reset in H. discriminate.
      + inversion H; subst e'. apply reset_loop_err in El as (k & Hk & [Hx|[Hx|(t & d & Ht & Hd & Hm)]]).
        * apply dget_none in Hx. contradiction.
        * apply dget_none in Hx. exfalso. apply Hx. now apply (wf_keys_d _ Hw).
        * destruct (wf_def _ Hw _ _ _ Ht Hd) as [Hal Hda].
          unfold merge_pytrees in Hm.
          rewrite (proj2 (Nat.eqb_eq _ _) (alike_len _ _ Hal)) in Hm. cbn [guard bind] in Hm.
          destruct (mapM2 (reset_leaf (tnot (halted_batches s)) t) (leaves t) (leaves d)) as [ls|e'] eqn:Em; cbn [bind] in Hm.
          -- apply unflatten_err_length in Hm. exfalso. apply Hm.
             apply mapM2_length in Em. rewrite Em, length_leaves_structure, (alike_len _ _ Hal). lia.
          -- inversion Hm; subst e'. clear Hm H.
             assert (Hnl : batch_shape s <> [] /\ forall x, t <> Leaf x).
             { split; intros Hx.
               - destruct (merge_reset_ok s t d Hw (wf_acc _ Hw _ _ Ht) Hal) as [t' Ht']; [auto|].
                 unfold merge_pytrees in Ht'. inv_bind Ht'. inv_bind Ht'. congruence.
               - intros Hy. destruct (merge_reset_ok s t d Hw (wf_acc _ Hw _ _ Ht) Hal) as [t' Ht']; [eauto|].
                 unfold merge_pytrees in Ht'. inv_bind Ht'. inv_bind Ht'. congruence. }
             destruct Hnl as [Hb Hl].
             assert (Hall : forall a b, reset_leaf (tnot (halted_batches s)) t a b = Err AttributeError).
             { intros a b. now apply reset_leaf_fails. }
             clear -Em Hall. revert Em. generalize (leaves d).
             destruct (leaves t) as [|x l]; intros [|y l']; simpl; try discriminate.
             rewrite Hall. cbn [bind]. congruence.
  Qed.

  Theorem reset_effect (s s' : st) :
    wf s -> reset_batches s = Ok s' -> was_reset s s' /\ wf s'.
  Proof.
    intros Hw H. unfold reset_batches in H. inv_bind H. clear E a. cbv zeta in H.
    inv_bind H. rewrite (mul_bool_char s _ Hw (wf_i _ Hw) (wf_i_shape _ Hw)) in E.
    inversion E; subst a; clear E.
    inv_bind H. rewrite (mul_bool_char s _ Hw (wf_p _ Hw) eq_refl) in E.
    inversion E; subst a; clear E.
    inv_bind H. rewrite (mul_bool_char s _ Hw (wf_r _ Hw) (wf_r_shape _ Hw)) in E.
    inversion E; subst a; clear E.
    inv_bind H. rename a into accs. rewrite replace_reset in H. inversion H; subst s'. clear H.
    apply reset_loop_inv in E as [Ka Hk]; [|exact (wf_nodup_a _ Hw)|intros ? ? []].
    cbn [dkeys map app] in Ka.
    pose proof (wf_batch_len _ Hw) as HPl.
    assert (HRl : length (a_data (residuals s)) = size (batch_shape s)).
    { pose proof (wf_r _ Hw) as Hx. unfold awf, twf in Hx. unfold a_data. rewrite Hx.
      pose proof (wf_r_shape _ Hw) as Hy. unfold a_shape in Hy. now rewrite Hy. }
    assert (HIl : length (a_data (iterations s)) = size (batch_shape s)).
    { pose proof (wf_i _ Hw) as Hx. unfold awf, twf in Hx. unfold a_data. rewrite Hx.
      pose proof (wf_i_shape _ Hw) as Hy. unfold a_shape in Hy. now rewrite Hy. }
    assert (Kacc : forall k t d, dget k (accumulators s) = Some t -> dget k (defaults s) = Some d ->
       exists t', dget k accs = Some t' /\ alike t' t /\ Forall awf (leaves t')
         /\ forall l a dl a', nth_error (leaves t) l = Some a -> nth_error (leaves d) l = Some dl ->
              nth_error (leaves t') l = Some a' -> leaf_reset s a dl a').
    { intros k t d Ht Hd. specialize (Hk k). destruct (in_dec _ _ _) as [Hi|Hi].
      2:{ exfalso. apply Hi. apply dget_keys; eauto. }
      destruct Hk as (acc & def & new & H1 & H2 & H3 & H4).
      rewrite Ht in H1. inversion H1; subst acc. rewrite Hd in H2. inversion H2; subst def.
      destruct (wf_def _ Hw _ _ _ Ht Hd) as [Hal Hda].
      apply merge_reset_inv in H3 as (_ & A & B & C); auto; [|exact (wf_acc _ Hw _ _ Ht)].
      exists new. auto. }
    assert (Kback : forall k t', dget k accs = Some t' ->
       exists t d, dget k (accumulators s) = Some t /\ dget k (defaults s) = Some d /\ alike t' t
         /\ Forall awf (leaves t')).
    { intros k t' Ht'. assert (Hin : In k (dkeys (accumulators s))).
      { unfold dkeys in Ka |- *. rewrite <- Ka. apply dget_keys; eauto. }
      apply dget_keys in Hin as [t Ht]. destruct (default_of s k t Hw Ht) as (d & Hd & _).
      destruct (Kacc k t d Ht Hd) as (t1 & Hg & Al & Aw & _).
      rewrite Ht' in Hg. inversion Hg; subst t1. eauto 10. }
    split.
    - constructor; cbn [epsilon depression_constant error_mode defaults probabilities residuals
        iterations accumulators updates]; try reflexivity; try assumption.
      + unfold sig. now rewrite (wf_r_shape _ Hw).
      + unfold sig. now rewrite (wf_i_shape _ Hw).
      + intros i p Hp. unfold a_data at 1. cbn [a_ten data]. now rewrite nth_error_map2, Hp.
      + intros i p r Hp Hr. unfold a_data at 1. cbn [a_ten data]. now rewrite nth_error_map2, Hp, Hr.
      + intros i p n Hp Hn. unfold a_data at 1. cbn [a_ten data]. now rewrite nth_error_map2, Hp, Hn.
      + intros k t d Ht Hd. destruct (Kacc k t d Ht Hd) as (t' & A & B & _ & C). eauto.
    - constructor; cbn [epsilon depression_constant error_mode defaults probabilities residuals
        iterations accumulators updates]; unfold batch_shape; cbn [probabilities a_ten a_shape shape];
        unfold awf, twf; cbn [a_ten shape data a_dt]; try reflexivity.
      + rewrite map2_length, HPl. apply Nat.min_id.
      + rewrite map2_length, HPl, HRl. apply Nat.min_id.
      + rewrite map2_length, HPl, HIl. apply Nat.min_id.
      + exact (wf_p_float _ Hw).
      + exact (wf_r_dtype _ Hw).
      + exact (wf_i_float _ Hw).
      + unfold dkeys in *. rewrite Ka. exact (wf_nodup_a _ Hw).
      + exact (wf_nodup_d _ Hw).
      + exact (wf_nodup_u _ Hw).
      + unfold dkeys in *. rewrite Ka. exact (wf_keys_d _ Hw).
      + unfold dkeys in *. rewrite Ka. exact (wf_keys_u _ Hw).
      + intros k t' Ht'. destruct (Kback k t' Ht') as (t & d & Ht & Hd & Hal & Aw).
        apply Forall_forall. intros a' Hin. apply In_nth_error in Hin as [l Hl].
        destruct (nth_error_same_length _ (leaves t) _ _ (alike_len _ _ Hal) Hl) as [a Ha].
        pose proof (alike_nth _ _ _ _ _ Hal Hl Ha) as Hsg. injection Hsg as Hs1 Hs2.
        destruct (Forall_nth _ _ _ _ (wf_acc _ Hw _ _ Ht) Ha) as (_ & Hfl & R & HR).
        split; [exact (Forall_nth _ _ _ _ Aw Hl)|]. split; [congruence|]. exists R. rewrite Hs1. exact HR.
      + intros k t' d Ht' Hd. destruct (Kback k t' Ht') as (t & d' & Ht & Hd' & Hal & Aw).
        assert (d' = d) by congruence. subst d'.
        destruct (wf_def _ Hw k t d Ht Hd) as (Hald & Bw).
        split; [eapply alike_trans; eauto|exact Bw].
  Qed.

  (** ** cache_update *)
  Definition with_updates (s : st) (u : dict tr) : st :=
    mkState (epsilon s) (iterations s) (residuals s) (probabilities s) (defaults s)
      (accumulators s) u (depression_constant s) (error_mode s).

  Theorem cache_update_char (s : st) name item :
    cache_update s name item =
    match dget name (updates s) with
    | None => Err ValueError
    | Some u => if is_none u then Ok (with_updates s (dset name item (updates s))) else Err RuntimeError
    end.
  Proof.
    unfold cache_update. destruct (dget name (updates s)) as [u|]; [|reflexivity].
    destruct (is_none u); reflexivity.
  Qed.

  Lemma cache_wf (s s' : st) name item : wf s -> cache_update s name item = Ok s' -> wf s'.
  Proof.
    intros Hw H. rewrite cache_update_char in H.
    destruct (dget name (updates s)) as [u|] eqn:E; [|discriminate].
    destruct (is_none u); [|discriminate]. inversion H; subst s'. clear H.
    assert (Hk : dkeys (dset name item (updates s)) = dkeys (updates s)).
    { apply dkeys_dset_in. apply dget_keys; eauto. }
    destruct Hw. constructor; cbn [with_updates epsilon iterations residuals probabilities defaults
      accumulators updates]; auto; unfold batch_shape; cbn [with_updates probabilities]; rewrite ?Hk; auto.
  Qed.
  Lemma cache_pending (s s' : st) name item :
    wf_pending s -> Forall awf (leaves item) -> cache_update s name item = Ok s' -> wf_pending s'.
  Proof.
    intros Hp Hi H. rewrite cache_update_char in H.
    destruct (dget name (updates s)) as [u|] eqn:E; [|discriminate].
    destruct (is_none u); [|discriminate]. inversion H; subst s'. clear H.
    intros k v Hv. cbn [with_updates updates] in Hv. rewrite dget_dset in Hv.
    destruct (String.eqb k name); [inversion Hv; subst; assumption|eauto].
  Qed.
End Reset.
