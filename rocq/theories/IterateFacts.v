(** * [iterate_act]: success, failure and effect, for every arithmetic. *)
From Verif Require Import Base PyTree Tensor Num Utils States Controller Wf.
From Verif Require Import BaseFacts PyTreeFacts TensorFacts ControllerFacts.

Section Iterate.
  Context {N : numsys}.
  Notation st := (state N).
  Notation tr := (tree (array N)).

  Lemma wf_batch_len (s : st) : wf s -> length (a_data (probabilities s)) = size (batch_shape s).
  Proof. intros H; exact (wf_p _ H). Qed.

  Lemma weights_length (s : st) h :
    wf s -> awf h -> a_shape h = batch_shape s -> length (weights s h) = size (batch_shape s).
  Proof.
    intros Hw Hh Hs. unfold weights. rewrite map2_length, (wf_batch_len _ Hw).
    unfold awf, twf in Hh. unfold a_data. rewrite Hh. unfold a_shape in Hs. rewrite Hs. lia.
  Qed.

  Lemma Forall_nth {A} (P : A -> Prop) l i x : Forall P l -> nth_error l i = Some x -> P x.
  Proof. intros H Hn. eapply Forall_forall; [eassumption|]. eapply nth_error_In; eassumption. Qed.

  Lemma Forall2_nth {A B} (P : A -> B -> Prop) l1 l2 :
    Forall2 P l1 l2 <->
    length l1 = length l2 /\
    forall i x y, nth_error l1 i = Some x -> nth_error l2 i = Some y -> P x y.
  Proof.
    revert l2; induction l1 as [|a l1 IH]; intros [|b l2]; split; intros H.
    - split; [reflexivity|]. intros [|i] ? ? Hx; discriminate.
    - constructor.
    - inversion H.
    - destruct H; discriminate.
    - inversion H.
    - destruct H; discriminate.
    - inversion H as [|? ? ? ? H1 H2]; subst. apply IH in H2 as [Hl Hn].
      split; [simpl; congruence|]. intros [|i] x y Hx Hy; simpl in *.
      + congruence.
      + eauto.
    - destruct H as [Hl Hn]. constructor.
      + exact (Hn 0 a b eq_refl eq_refl).
      + apply IH. split; [simpl in Hl; congruence|]. intros i x y Hx Hy. exact (Hn (S i) x y Hx Hy).
  Qed.

  (** Merging one accumulator tree with its update. *)
  Lemma merge_update_ok (s : st) h t u :
    wf s -> awf h -> a_shape h = batch_shape s ->
    Forall (leaf_fits (batch_shape s)) (leaves t) -> Forall awf (leaves u) ->
    Forall2 (can_add (a_dt (probabilities s))) (leaves t) (leaves u) ->
    exists t', merge_pytrees
      (update_accumulator s (mkA (a_dt (probabilities s)) (mkT (batch_shape s) (weights s h)))) t u = Ok t'.
  Proof.
    intros Hw Hh Hs Ht Hu Hf. apply Forall2_nth in Hf as [Hl Hf]. apply merge_total; [assumption|].
    intros i a b Ha Hb.
    destruct (Forall_nth _ _ _ _ Ht Ha) as (Haw & _ & R & HR).
    pose proof (Forall_nth _ _ _ _ Hu Hb) as Hbw.
    destruct (Hf i a b Ha Hb) as [Hsh Hdt].
    rewrite (update_accumulator_char s _ _ a b R (wf_p _ Hw) (weights_length _ _ Hw Hh Hs) Haw Hbw HR).
    rewrite (proj2 (shape_eqb_eq _ _) Hsh), Hdt, dtype_eqb_refl. eauto.
  Qed.

  Lemma merge_update_inv (s : st) h t u t' :
    wf s -> awf h -> a_shape h = batch_shape s ->
    Forall (leaf_fits (batch_shape s)) (leaves t) -> Forall awf (leaves u) ->
    merge_pytrees
      (update_accumulator s (mkA (a_dt (probabilities s)) (mkT (batch_shape s) (weights s h)))) t u = Ok t' ->
    Forall2 (can_add (a_dt (probabilities s))) (leaves t) (leaves u) /\
    alike t' t /\ Forall awf (leaves t') /\
    forall l a ul a', nth_error (leaves t) l = Some a -> nth_error (leaves u) l = Some ul ->
      nth_error (leaves t') l = Some a' -> leaf_effect s h a ul a'.
  Proof.
    intros Hw Hh Hs Ht Hu Hm. apply merge_ok_iff in Hm as (Hl & Hst & Hf).
    assert (Hl' : length (leaves t') = length (leaves t)) by now apply structure_eq_length.
    assert (K : forall i a b, nth_error (leaves t) i = Some a -> nth_error (leaves u) i = Some b ->
       exists R, a_shape a = batch_shape s ++ R /\ awf a /\ awf b /\
         can_add (a_dt (probabilities s)) a b /\
         nth_error (leaves t') i =
           Some (mkA (a_dt a) (mkT (a_shape a) (new_leaf s (weights s h) (size R) a b)))).
    { intros i a b Ha Hb. destruct (Forall_nth _ _ _ _ Ht Ha) as (Haw & _ & R & HR).
      pose proof (Forall_nth _ _ _ _ Hu Hb) as Hbw. exists R.
      destruct (Hf i a b Ha Hb) as (z & Hz & Hzn).
      rewrite (update_accumulator_char s _ _ a b R (wf_p _ Hw) (weights_length _ _ Hw Hh Hs) Haw Hbw HR) in Hz.
      destruct (shape_eqb (a_shape a) (a_shape b)) eqn:E1; [|discriminate].
      destruct (dtype_eqb (a_dt a) _) eqn:E2; [|discriminate].
      apply shape_eqb_eq in E1. apply dtype_eqb_eq in E2. inversion Hz; subst z.
      repeat split; auto. }
    repeat split.
    - apply Forall2_nth. split; [assumption|]. intros i a b Ha Hb.
      destruct (K i a b Ha Hb) as (R & _ & _ & _ & Hc & _). exact Hc.
    - assumption.
    - apply nth_error_ext. intros i. rewrite !nth_error_map.
      destruct (nth_error (leaves t) i) as [a|] eqn:Ea.
      + destruct (nth_error_same_length _ (leaves u) _ _ Hl Ea) as [b Hb].
        destruct (K i a b Ea Hb) as (R & _ & _ & _ & _ & ->). reflexivity.
      + apply nth_error_None in Ea.
        assert (nth_error (leaves t') i = None) as -> by (apply nth_error_None; lia). reflexivity.
    - apply Forall_forall. intros a' Hin. apply In_nth_error in Hin as [i Hi].
      destruct (nth_error_same_length _ (leaves t) _ _ Hl' Hi) as [a Ha].
      destruct (nth_error_same_length _ (leaves u) _ _ Hl Ha) as [b Hb].
      destruct (K i a b Ha Hb) as (R & HR & Haw & Hbw & [Hsh _] & Hi').
      rewrite Hi in Hi'. inversion Hi'; subst a'. unfold awf, twf. cbn [a_ten data shape].
      unfold awf, twf in Haw, Hbw.
      rewrite new_leaf_length.
      + unfold a_data. rewrite Haw. reflexivity.
      + exact (wf_p _ Hw).
      + now apply weights_length.
      + unfold a_data. rewrite Haw. fold (a_shape a). rewrite HR. apply size_app.
      + unfold a_data. rewrite Haw, Hbw. unfold a_shape in Hsh. now rewrite Hsh.
    - intros l a b a' Ha Hb Ha'. destruct (K l a b Ha Hb) as (R & HR & Haw & Hbw & _ & Hi').
      rewrite Ha' in Hi'. inversion Hi'; subst a'. clear Hi' Ha'.
      intros R' HR' j av uv p hv Hav Huv Hp Hhv.
      assert (R' = R) as ->.
      { rewrite HR in HR'. now apply app_inv_head in HR'. }
      cbn [a_data a_ten data].
      unfold awf, twf in Haw. fold (a_shape a) in Haw. rewrite HR in Haw.
      destruct (size_pos_nth _ _ _ _ _ Haw Hav) as [Hpos _].
      rewrite (new_leaf_nth s h (size R) a b j av uv Hpos Hav Huv), Hp, Hhv. reflexivity.
  Qed.

  Lemma replace_iterate (s : st) i r p a u :
    replace s (mkR None (Some i) (Some r) (Some p) (Some a) None (Some u) None None) =
    Ok (mkState (epsilon s) i r p (defaults s) a u (depression_constant s) (error_mode s)).
  Proof. reflexivity. Qed.

  Lemma iterations_char (s : st) :
    wf s ->
    a_select (halted_batches s) (iterations s) (a_plus_one (iterations s)) =
    Ok (mkA (a_dt (iterations s)) (mkT (batch_shape s)
          (map2 (next_i s) (a_data (probabilities s)) (a_data (iterations s))))).
  Proof.
    intros Hw. unfold a_select, a_plus_one. cbn [a_dt a_ten].
    rewrite (floating_weak_int _ (wf_i_float _ Hw)), dtype_eqb_refl.
    rewrite tselect_same.
    2: reflexivity.
    2:{ rewrite halted_shape. symmetry. exact (wf_i_shape _ Hw). }
    cbn [bind]. do 2 f_equal.
    pose proof (wf_i_shape _ Hw) as E. unfold a_shape in E. rewrite E. f_equal.
    rewrite halted_data. cbn [tensor_map data]. unfold a_data.
    generalize (data (a_ten (probabilities s))) (data (a_ten (iterations s))).
    induction l as [|p P IH]; intros [|n I]; try reflexivity.
    cbn [map sel map2]. f_equal. apply IH.
  Qed.

  (** Success: exactly when shape and dtype of the halting probabilities match and every
      accumulator has an update that fits. *)
  Theorem iterate_ok_iff (s : st) (h : array N) :
    wf s -> wf_pending s -> awf h ->
    (exists s', iterate_act s h = Ok s') <->
    (a_shape h = batch_shape s /\ weak_float (a_dt h) = a_dt (probabilities s) /\ ready s).
  Proof.
    intros Hw Hpend Hh. unfold iterate_act. split.
    - intros [s' H]. inv_bind H. apply guard_ok, shape_eqb_eq in E. fold (batch_shape s) in E.
      inv_bind H. rewrite (process_probabilities_char s h Hw Hh E) in E0.
      destruct (dtype_eqb _ _) eqn:Ed in E0; [|discriminate]. apply dtype_eqb_eq in Ed.
      cbv zeta in E0. inversion E0; subst a0. clear E0.
      split; [assumption|]. split; [congruence|].
      inv_bind H. destruct a0 as [accs upds].
      apply iterate_loop_inv in E0 as (_ & _ & Hk); [|exact (wf_nodup_a _ Hw)].
      intros k t Ht. specialize (Hk k). destruct (in_dec _ _ _) as [Hi|Hi].
      2:{ exfalso. apply Hi. apply dget_keys; eauto. }
      destruct Hk as (acc & upd & new & H1 & H2 & H3 & H4 & _ & _).
      rewrite Ht in H1. inversion H1; subst acc. exists upd. split; [assumption|].
      split; [assumption|].
      apply merge_update_inv in H4; eauto.
      + apply H4.
      + exact (wf_acc _ Hw _ _ Ht).
    - intros (E & Ed & Hr). fold (batch_shape s) in *. rewrite E, shape_eqb_refl. cbn [guard bind].
      rewrite (process_probabilities_char s h Hw Hh E), Ed, dtype_eqb_refl. cbv zeta. cbn [bind].
      edestruct (iterate_loop_total s
        (mkA (a_dt (probabilities s)) (mkT (batch_shape s) (weights s h)))
        (dkeys (accumulators s)) (accumulators s) (updates s) (wf_nodup_a _ Hw)) as (accs & upds & Hlp).
      + intros k Hk. apply dget_keys in Hk as [t Ht]. destruct (Hr k t Ht) as (u & Hu & Hn & Hf).
        destruct (merge_update_ok s h t u Hw Hh E (wf_acc _ Hw _ _ Ht) (Hpend _ _ Hu) Hf) as [t' Ht'].
        exists t, u, t'. auto.
      + rewrite Hlp. cbn [bind]. rewrite (iterations_char s Hw). cbn [bind].
        rewrite replace_iterate. eauto.
  Qed.

  Theorem iterate_committed (s : st) (h : array N) (s' : st) :
    wf s -> wf_pending s -> awf h -> iterate_act s h = Ok s' ->
    committed s h s' /\ wf s' /\ wf_pending s'.
  Proof.
    intros Hw Hpend Hh H. unfold iterate_act in H.
    inv_bind H. apply guard_ok, shape_eqb_eq in E. fold (batch_shape s) in E.
    inv_bind H. rewrite (process_probabilities_char s h Hw Hh E) in E0.
    destruct (dtype_eqb _ _) eqn:Ed in E0; [|discriminate]. clear Ed.
    cbv zeta in E0. inversion E0; subst a0. clear E0 a.
    inv_bind H. destruct a as [accs upds]. inv_bind H. rename a into its.
    rewrite (iterations_char s Hw) in E1. inversion E1; subst its. clear E1.
    rewrite replace_iterate in H. inversion H; subst s'. clear H.
    apply iterate_loop_inv in E0 as (Ka & Ku & Hk); [|exact (wf_nodup_a _ Hw)].
    pose proof (wf_batch_len _ Hw) as HPl.
    assert (HHl : length (a_data h) = size (batch_shape s)).
    { unfold awf, twf in Hh. unfold a_data. rewrite Hh. unfold a_shape in E. now rewrite E. }
    assert (HRl : length (a_data (residuals s)) = size (batch_shape s)).
    { pose proof (wf_r _ Hw) as Hx. unfold awf, twf in Hx. unfold a_data. rewrite Hx.
      pose proof (wf_r_shape _ Hw) as Hy. unfold a_shape in Hy. now rewrite Hy. }
    assert (HIl : length (a_data (iterations s)) = size (batch_shape s)).
    { pose proof (wf_i _ Hw) as Hx. unfold awf, twf in Hx. unfold a_data. rewrite Hx.
      pose proof (wf_i_shape _ Hw) as Hy. unfold a_shape in Hy. now rewrite Hy. }
    assert (Kacc : forall k t, dget k (accumulators s) = Some t ->
       exists u t', dget k (updates s) = Some u /\ dget k accs = Some t' /\ alike t' t
         /\ Forall awf (leaves t') /\ length (leaves u) = length (leaves t)
         /\ dget k upds = Some tnone
         /\ forall l a ul a', nth_error (leaves t) l = Some a -> nth_error (leaves u) l = Some ul ->
              nth_error (leaves t') l = Some a' -> leaf_effect s h a ul a').
    { intros k t Ht. specialize (Hk k). destruct (in_dec _ _ _) as [Hi|Hi].
      2:{ exfalso. apply Hi. apply dget_keys; eauto. }
      destruct Hk as (acc & upd & new & H1 & H2 & H3 & H4 & H5 & H6).
      rewrite Ht in H1. inversion H1; subst acc. exists upd, new.
      apply merge_update_inv in H4; eauto; [|exact (wf_acc _ Hw _ _ Ht)].
      destruct H4 as (F & Al & Aw & Ef). apply Forall2_nth in F as [F _]. repeat split; auto.
      - apply Al.
      - apply Al. }
    assert (Kupd : forall k, In k (dkeys (updates s)) -> dget k upds = Some tnone).
    { intros k Hin. apply (wf_keys_u _ Hw) in Hin. apply dget_keys in Hin as [t Ht].
      destruct (Kacc k t Ht) as (? & ? & ? & ? & ? & ? & ? & Hx & _). exact Hx. }
    assert (Kback : forall k t', dget k accs = Some t' ->
       exists t, dget k (accumulators s) = Some t /\ alike t' t /\ Forall awf (leaves t')).
    { intros k t' Ht'. assert (Hin : In k (dkeys (accumulators s))).
      { rewrite <- Ka. apply dget_keys; eauto. }
      apply dget_keys in Hin as [t Ht]. destruct (Kacc k t Ht) as (u & t1 & _ & Hg & Al & Aw & _).
      rewrite Ht' in Hg. inversion Hg; subst t1. eauto. }
    assert (Kal : forall k t', dget k accs = Some t' -> Forall (leaf_fits (batch_shape s)) (leaves t')).
    { intros k t' Ht'. destruct (Kback k t' Ht') as (t & Ht & [Hst Hsig] & Aw).
      apply Forall_forall. intros a' Hin. apply In_nth_error in Hin as [l Hl].
      assert (Hx : nth_error (map sig (leaves t)) l = Some (sig a')).
      { rewrite <- Hsig. rewrite nth_error_map, Hl. reflexivity. }
      rewrite nth_error_map in Hx. destruct (nth_error (leaves t) l) as [a|] eqn:Ea; [|discriminate].
      cbn [option_map] in Hx. injection Hx as Hx1 Hx2.
      destruct (Forall_nth _ _ _ _ (wf_acc _ Hw _ _ Ht) Ea) as (_ & Hfl & R & HR).
      split; [exact (Forall_nth _ _ _ _ Aw Hl)|]. split; [congruence|]. exists R. congruence. }
    split; [|split].
    - constructor; cbn [epsilon depression_constant error_mode defaults probabilities residuals
        iterations accumulators updates]; try reflexivity; try assumption.
      + unfold sig. now rewrite (wf_r_shape _ Hw), (wf_r_dtype _ Hw).
      + unfold sig. now rewrite (wf_i_shape _ Hw).
      + intros i p hv Hp Hhv. unfold a_data at 1. cbn [a_ten data].
        now rewrite nth_error_map2, Hp, Hhv.
      + intros i p r hv Hp Hr Hhv. unfold a_data at 1. cbn [a_ten data].
        rewrite nth_error_map2, Hhv.
        assert (Hc : nth_error (combine (a_data (probabilities s)) (a_data (residuals s))) i = Some (p, r)).
        { clear -Hp Hr. revert Hp Hr. generalize (a_data (probabilities s)) (a_data (residuals s)).
          induction i as [|i IH]; intros [|x l] [|y l'] Hp Hr; simpl in *; try discriminate;
            [congruence|eauto]. }
        rewrite Hc. reflexivity.
      + intros i p n Hp Hn. unfold a_data at 1. cbn [a_ten data].
        now rewrite nth_error_map2, Hp, Hn.
      + intros k t Ht. destruct (Kacc k t Ht) as (u & t' & H1 & H2 & H3 & _ & H4 & _ & H5).
        exists u, t'. auto.
    - constructor; cbn [epsilon depression_constant error_mode defaults probabilities residuals
        iterations accumulators updates]; unfold batch_shape; cbn [probabilities a_ten a_shape shape];
        unfold awf, twf; cbn [a_ten shape data a_dt]; try reflexivity.
      + rewrite map2_length, HPl, HHl. apply Nat.min_id.
      + rewrite map2_length, combine_length, HPl, HRl, HHl, !Nat.min_id. reflexivity.
      + rewrite map2_length, HPl, HIl. apply Nat.min_id.
      + exact (wf_p_float _ Hw).
      + exact (wf_i_float _ Hw).
      + rewrite Ka. exact (wf_nodup_a _ Hw).
      + exact (wf_nodup_d _ Hw).
      + rewrite Ku. exact (wf_nodup_u _ Hw).
      + rewrite Ka. exact (wf_keys_d _ Hw).
      + rewrite Ka, Ku. exact (wf_keys_u _ Hw).
      + intros k t' Ht'. exact (Kal k t' Ht').
      + intros k t' d Ht' Hd. destruct (Kback k t' Ht') as (t & Ht & [A1 A2] & Aw).
        destruct (wf_def _ Hw k t d Ht Hd) as ([B1 B2] & Bw).
        split; [split; congruence|assumption].
    - intros k u Hu. cbn [updates] in Hu.
      assert (Hin : In k (dkeys (updates s))) by (rewrite <- Ku; apply dget_keys; eauto).
      rewrite (Kupd k Hin) in Hu. inversion Hu; subst. constructor.
  Qed.

  (** Failure: which exception for which violated requirement. *)
  Theorem iterate_err (s : st) (h : array N) e :
    wf s -> wf_pending s -> awf h -> iterate_act s h = Err e ->
    (a_shape h <> batch_shape s /\ e = ValueError) \/
    (a_shape h = batch_shape s /\ weak_float (a_dt h) <> a_dt (probabilities s) /\ e = JaxError) \/
    (a_shape h = batch_shape s /\ weak_float (a_dt h) = a_dt (probabilities s) /\ ~ ready s
     /\ e = RuntimeError).
  Proof.
    intros Hw Hpend Hh H.
    assert (Hno : ~ (a_shape h = batch_shape s /\ weak_float (a_dt h) = a_dt (probabilities s) /\ ready s)).
    { intros Hx. apply (iterate_ok_iff s h Hw Hpend Hh) in Hx as [s' Hs']. congruence. }
    unfold iterate_act in H. fold (batch_shape s) in H.
    destruct (shape_eqb (a_shape h) (batch_shape s)) eqn:E; cbn [guard bind] in H.
    2:{ left. apply shape_eqb_neq in E. split; [assumption|congruence]. }
    apply shape_eqb_eq in E. right. rewrite (process_probabilities_char s h Hw Hh E) in H.
    destruct (dtype_eqb (a_dt (probabilities s)) (weak_float (a_dt h))) eqn:Ed; cbv zeta in H; cbn [bind] in H.
    - apply dtype_eqb_eq in Ed. right. split; [assumption|]. split; [congruence|].
      split; [intros Hr; apply Hno; auto|].
      destruct (iterate_loop _ _ _ _ _) as [[a u]|e'] eqn:El; cbn [bind] in H.
      + rewrite (iterations_char s Hw) in H. cbn [bind] in H. rewrite replace_iterate in H. discriminate.
      + apply iterate_loop_err in El. congruence.
    - left. split; [assumption|]. split; [|congruence].
      intros Hx. rewrite Hx, dtype_eqb_refl in Ed. discriminate.
  Qed.
End Iterate.
