(** * Proofs for SubsetSpec.v: accumulators do not interfere. *)
From Verif Require Import Base PyTree Tensor Num Utils States Controller Wf History ElementSpec SubsetSpec.
From Verif Require Import BaseFacts PyTreeFacts ControllerFacts IterateFacts ResetFacts HistoryFacts.

Lemma keep_get {V} P k (d : dict V) : dget k (keep P d) = if P k then dget k d else None.
Proof.
  induction d as [|[k' v] d IH]; cbn [keep filter fst dget]; [now destruct (P k)|].
  destruct (P k') eqn:E; cbn [dget]; fold (keep P d); rewrite IH; destruct (String.eqb_spec k k') as [->|]; rewrite ?E; reflexivity.
Qed.
Lemma keep_set {V} P k v (d : dict V) : keep P (dset k v d) = if P k then dset k v (keep P d) else keep P d.
Proof.
  induction d as [|[k' v'] d IH]; cbn [keep dset filter fst]; [destruct (P k); reflexivity|].
  destruct (String.eqb_spec k k') as [->|Hk]; cbn [filter fst].
  - destruct (P k') eqn:E; cbn [dset]; [now rewrite String.eqb_refl|reflexivity].
  - fold (keep P (dset k v d)) (keep P d). rewrite IH. destruct (P k') eqn:E'; destruct (P k) eqn:E; try reflexivity.
    cbn [dset]. destruct (String.eqb_spec k k'); [contradiction|reflexivity].
Qed.
Lemma keep_keys {V} P (d : dict V) : dkeys (keep P d) = filter P (dkeys d).
Proof.
  unfold dkeys, keep. induction d as [|[k v] d IH]; cbn [filter map fst]; [reflexivity|].
  destruct (P k); cbn [map fst]; now rewrite IH.
Qed.
Lemma keep_In {V} P k v (d : dict V) : In (k, v) (keep P d) <-> In (k, v) d /\ P k = true.
Proof. unfold keep. rewrite filter_In. reflexivity. Qed.

Section SubsetFacts.
  Context {N : numsys}.
  Notation st := (state N).
  Notation tr := (tree (array N)).

  Lemma iterate_loop_keep P (s : st) h names accs upds accs' upds' :
    iterate_loop s h names accs upds = Ok (accs', upds') ->
    iterate_loop (only P s) h (filter P names) (keep P accs) (keep P upds) = Ok (keep P accs', keep P upds').
  Proof.
    revert accs upds. induction names as [|n names IH]; intros accs upds H; cbn [iterate_loop] in H; cbn [filter].
    - injection H as <- <-. reflexivity.
    - inv_bind H. destruct a as [accs1 upds1]. apply rewrap_ok in E.
      inv_bind E. inv_bind E. inv_bind E. inv_bind E. injection E as <- <-. apply IH in H. rewrite !keep_set in H.
      apply dlookup_ok in E0, E1.
      destruct (P n) eqn:Pn; [|exact H]. cbn [iterate_loop]. unfold dlookup. rewrite !keep_get, Pn, E0, E1. cbn [bind].
      rewrite E2. cbn [bind]. change (update_accumulator (only P s) h) with (update_accumulator s h). rewrite E3. cbn [bind rewrap].
      exact H.
  Qed.
  Lemma iterate_keep P (s s' : st) h : iterate_act s h = Ok s' -> iterate_act (only P s) h = Ok (only P s').
  Proof.
    unfold iterate_act. change (probabilities (only P s)) with (probabilities s).
    change (process_probabilities (only P s)) with (process_probabilities s). change (halted_batches (only P s)) with (halted_batches s).
    change (iterations (only P s)) with (iterations s). intros H. inv_bind H. rewrite E. cbn [bind].
    destruct (process_probabilities s (a_clip01 h)) as [[[h2 r'] p']|]; cbn [bind] in *; [|discriminate].
    destruct (iterate_loop s h2 _ _ _) as [[accs upds]|] eqn:L; cbn [bind] in *; [|discriminate].
    apply (iterate_loop_keep P) in L. change (accumulators (only P s)) with (keep P (accumulators s)).
    change (updates (only P s)) with (keep P (updates s)). rewrite keep_keys, L. cbn [bind].
    destruct (a_select _ _ _); cbn [bind] in *; [|discriminate]. rewrite replace_iterate in *. injection H as <-. reflexivity.
  Qed.

  Lemma has_cached_keep P (s : st) : has_cached_updates s = false -> has_cached_updates (only P s) = false.
  Proof.
    unfold has_cached_updates. rewrite <- !not_true_iff_false, !existsb_exists. intros H ([k u] & Hin & Hu). apply H.
    exists (k, u). split; [|exact Hu]. now apply keep_In in Hin.
  Qed.
  Lemma reset_loop_keep P (s : st) m names out out' :
    reset_loop s m names out = Ok out' ->
    reset_loop (only P s) m (filter P names) (keep P out) = Ok (keep P out').
  Proof.
    revert out. induction names as [|n names IH]; intros out H; cbn [reset_loop] in H; cbn [filter].
    - injection H as <-. reflexivity.
    - inv_bind H. inv_bind H. inv_bind H. apply IH in H. rewrite keep_set in H. apply dlookup_ok in E, E0.
      destruct (P n) eqn:Pn; [|exact H]. cbn [reset_loop only accumulators defaults]. unfold dlookup. rewrite !keep_get, Pn, E, E0. cbn [bind].
      rewrite E1. exact H.
  Qed.
  Lemma reset_keep P (s s' : st) : reset_batches s = Ok s' -> reset_batches (only P s) = Ok (only P s').
  Proof.
    unfold reset_batches. change (probabilities (only P s)) with (probabilities s). change (residuals (only P s)) with (residuals s).
    change (halted_batches (only P s)) with (halted_batches s).
    change (iterations (only P s)) with (iterations s). intros H. inv_bind H. apply guard_ok in E. apply negb_true_iff in E.
    rewrite (has_cached_keep P s E). cbn [negb guard bind]. inv_bind H. inv_bind H. inv_bind H. inv_bind H.
    rewrite E0, E1, E2. cbn [bind]. apply (reset_loop_keep P) in E3. change (keep P []) with (@nil (string * tr)) in E3.
    change (accumulators (only P s)) with (keep P (accumulators s)). rewrite keep_keys, E3. cbn [bind].
    rewrite replace_reset in *. injection H as <-. reflexivity.
  Qed.
  Lemma cache_keep (P : string -> bool) (s s' : st) name item : cache_update s name item = Ok s' ->
    if P name then cache_update (only P s) name item = Ok (only P s') else only P s' = only P s.
  Proof.
    rewrite !cache_update_char. change (updates (only P s)) with (keep P (updates s)). rewrite keep_get.
    destruct (dget name (updates s)) as [u|]; [|discriminate]. destruct (is_none u) eqn:Z; [|discriminate].
    intros [= <-]. unfold only, with_updates. cbn [epsilon iterations residuals probabilities defaults accumulators updates depression_constant error_mode].
    rewrite keep_set. destruct (P name); [rewrite Z|]; reflexivity.
  Qed.
  Lemma call_keep (P : string -> bool) (s s' : st) c : apply_call s c = Ok s' ->
    if concerns P c then apply_call (only P s) c = Ok (only P s') else only P s' = only P s.
  Proof.
    destruct c as [name item|h|]; cbn [apply_call concerns]; [apply cache_keep|apply iterate_keep|apply reset_keep].
  Qed.
  Lemma run_keep P (s : st) cs : all_return (only P s) (only_calls P (returned s cs)) = Some (only P (run s cs)).
  Proof.
    revert s. induction cs as [|c cs IH]; intros s; [reflexivity|]. rewrite run_cons. unfold after. cbn [returned].
    destruct (apply_call s c) as [s'|] eqn:E; [|apply IH]. apply (call_keep P) in E. unfold only_calls in *. cbn [filter].
    destruct (concerns P c); [cbn [all_return]; rewrite E; apply IH|]. rewrite <- E. apply IH.
  Qed.

  (** ** The parts decide whether a call returns *)
  Lemma only_filter_just (s : st) k : NoDup (dkeys (accumulators s)) -> In k (dkeys (accumulators s)) ->
    dkeys (accumulators (only (just k) s)) = [k].
  Proof.
    cbn [only accumulators]. rewrite keep_keys. generalize (dkeys (accumulators s)) as l. unfold just.
    assert (Z : forall l, ~ In k l -> filter (String.eqb k) l = []).
    { intros l. induction l as [|x l IH]; [reflexivity|]. intros H. cbn [filter]. destruct (String.eqb_spec k x) as [->|]; [exfalso; apply H; now left|].
      apply IH. intros X. apply H. now right. }
    intros l. induction l as [|x l IH]; [intros _ []|]. intros ND Hin. inversion ND; subst. cbn [filter].
    destruct (String.eqb_spec k x) as [->|]; [now rewrite Z|]. destruct Hin as [->|Hin]; [contradiction|]. now apply IH.
  Qed.
  Lemma iterate_parts (s : st) h : wf s ->
    (exists s', iterate_act s h = Ok s') <->
    (exists s', iterate_act (only nothing s) h = Ok s') /\
    (forall k, In k (dkeys (accumulators s)) -> exists s', iterate_act (only (just k) s) h = Ok s').
  Proof.
    intros W. split.
    - intros [s' H]. split; [|intros k _]; eexists; eapply iterate_keep; exact H.
    - intros [[s0 H0] H].
      assert (L : exists h2 r' p' i', guard (shape_eqb (a_shape h) (a_shape (probabilities s))) ValueError = Ok tt /\
                process_probabilities s (a_clip01 h) = Ok (h2, r', p') /\
                a_select (halted_batches s) (iterations s) (a_plus_one (iterations s)) = Ok i').
      { unfold iterate_act in H0. change (probabilities (only nothing s)) with (probabilities s) in H0.
        change (process_probabilities (only nothing s)) with (process_probabilities s) in H0.
        change (halted_batches (only nothing s)) with (halted_batches s) in H0.
        change (iterations (only nothing s)) with (iterations s) in H0. inv_bind H0.
        destruct (process_probabilities s (a_clip01 h)) as [[[h2 r'] p']|] eqn:Ep; cbn [bind] in *; [|discriminate].
        inv_bind H0. destruct a0. inv_bind H0. destruct a. eauto 10. }
      destruct L as (h2 & r' & p' & i' & G & Pp & Is). unfold iterate_act. rewrite G. cbn [bind]. rewrite Pp. cbn [bind].
      destruct (iterate_loop_total s h2 (dkeys (accumulators s)) (accumulators s) (updates s) (wf_nodup_a _ W)) as (accs & upds & E).
      { intros k Hk. destruct (H k Hk) as [s' Hs]. unfold iterate_act in Hs.
        change (probabilities (only (just k) s)) with (probabilities s) in Hs.
        change (process_probabilities (only (just k) s)) with (process_probabilities s) in Hs. rewrite G in Hs. cbn [bind] in Hs.
        rewrite Pp in Hs. cbn [bind] in Hs. rewrite (only_filter_just s k (wf_nodup_a _ W) Hk) in Hs. inv_bind Hs. destruct a as [a1 u1].
        apply iterate_loop_inv in E as (_ & _ & E); [|repeat constructor; intros []]. specialize (E k).
        destruct (in_dec string_dec k [k]) as [_|X]; [|exfalso; apply X; now left].
        destruct E as (acc & upd & new & Ha & Hu & Hn & Hm & _). cbn [only accumulators updates] in Ha, Hu.
        rewrite keep_get in Ha, Hu. unfold just in Ha, Hu. rewrite String.eqb_refl in Ha, Hu.
        exists acc, upd, new. auto. }
      rewrite E. cbn [bind]. rewrite Is. cbn [bind]. rewrite replace_iterate. eauto.
  Qed.
  Lemma reset_parts (s : st) : wf s ->
    (exists s', reset_batches s = Ok s') <->
    (exists s', reset_batches (only nothing s) = Ok s') /\
    (forall k, In k (dkeys (accumulators s)) -> exists s', reset_batches (only (just k) s) = Ok s').
  Proof.
    intros W. split.
    - intros [s' H]. split; [|intros k _]; eexists; eapply reset_keep; exact H.
    - intros [[s0 H0] H].
      assert (C : has_cached_updates s = false).
      { apply not_true_iff_false. unfold has_cached_updates. rewrite existsb_exists. intros ([k u] & Hin & Hu).
        assert (Hk : In k (dkeys (accumulators s))). { apply (wf_keys_u _ W). unfold dkeys. apply in_map_iff. now exists (k, u). }
        destruct (H k Hk) as [s' Hs]. unfold reset_batches in Hs. inv_bind Hs. apply guard_ok in E. apply negb_true_iff in E.
        apply not_true_iff_false in E. apply E. unfold has_cached_updates. rewrite existsb_exists. exists (k, u). split; [|exact Hu].
        apply keep_In. split; [exact Hin|]. unfold just. apply String.eqb_refl. }
      unfold reset_batches in *. rewrite C. cbn [negb guard bind].
      inv_bind H0. change (iterations (only nothing s)) with (iterations s) in H0. change (probabilities (only nothing s)) with (probabilities s) in H0.
      change (residuals (only nothing s)) with (residuals s) in H0. change (halted_batches (only nothing s)) with (halted_batches s) in H0.
      inv_bind H0. inv_bind H0. inv_bind H0. rewrite E0, E1, E2. cbn [bind].
      destruct (reset_loop_total s (tnot (halted_batches s)) (dkeys (accumulators s)) []) as (accs & El).
      { intros k Hk. destruct (H k Hk) as [s' Hs]. inv_bind Hs. inv_bind Hs. inv_bind Hs. inv_bind Hs. inv_bind Hs.
        rewrite (only_filter_just s k (wf_nodup_a _ W) Hk) in E7. apply reset_loop_inv in E7 as (_ & E7); [|repeat constructor; intros []|intros ? ? []].
        specialize (E7 k). destruct (in_dec string_dec k [k]) as [_|X]; [|exfalso; apply X; now left].
        destruct E7 as (acc & def & new & Ha & Hd & Hm & _). cbn [only accumulators defaults] in Ha, Hd.
        rewrite keep_get in Ha, Hd. unfold just in Ha, Hd. rewrite String.eqb_refl in Ha, Hd. exists acc, def, new. auto. }
      rewrite El. cbn [bind]. rewrite replace_reset. eauto.
  Qed.
End SubsetFacts.
