(** * Single steps of the controller: exactly-once commits, caching order, clamping, dtypes. *)
From Coq Require Import Permutation.
From Verif Require Import Base PyTree Tensor Num Utils States Controller Wf Spec History ElementSpec.
From Verif Require Import BaseFacts PyTreeFacts TensorFacts ControllerFacts IterateFacts ResetFacts HistoryFacts.

Lemma dset_comm {V} k1 k2 (v1 v2 : V) d :
  k1 <> k2 -> In k1 (dkeys d) -> In k2 (dkeys d) -> dset k1 v1 (dset k2 v2 d) = dset k2 v2 (dset k1 v1 d).
Proof.
  intros Hk. induction d as [|[k v] d IH]; intros H1 H2; [contradiction|].
  cbn [dset dkeys map fst] in *.
  destruct (String.eqb_spec k1 k) as [->|E1]; destruct (String.eqb_spec k2 k) as [->|E2]; cbn [dset].
  - congruence.
  - now rewrite String.eqb_refl, (proj2 (String.eqb_neq k2 k) E2).
  - now rewrite String.eqb_refl, (proj2 (String.eqb_neq k1 k) E1).
  - rewrite (proj2 (String.eqb_neq k1 k) E1), (proj2 (String.eqb_neq k2 k) E2). f_equal.
    destruct H1 as [H1|H1]; [congruence|]. destruct H2 as [H2|H2]; [congruence|]. now apply IH.
Qed.

Section Step.
  Context {N : numsys}.
  Notation st := (state N).
  Notation tr := (tree (array N)).

  (** ** C09 *)
  Theorem iterate_empties (s s' : st) h : wf s -> wf_pending s -> awf h -> iterate_act s h = Ok s' ->
    (forall k t, dget k (accumulators s) = Some t -> exists u, dget k (updates s) = Some u /\ is_none u = false) /\
    (forall k t, dget k (accumulators s') = Some t -> dget k (updates s') = Some tnone).
  Proof.
    intros W P A H.
    destruct (proj1 (iterate_ok_iff s h W P A) (ex_intro _ _ H)) as (_ & _ & R).
    destruct (iterate_committed s h s' W P A H) as (C & W' & _). split.
    - intros k t Ht. destruct (R k t Ht) as (u & Hu & Hn & _). eauto.
    - intros k t Ht. apply (cm_upd _ _ _ C). apply (wf_keys_u _ W). rewrite <- (cm_keys_a _ _ _ C).
      apply dget_keys. eauto.
  Qed.
  Theorem iterate_twice (s s' : st) h h' k : wf s -> wf_pending s -> awf h -> awf h' ->
    iterate_act s h = Ok s' -> In k (dkeys (accumulators s)) ->
    exists e, iterate_act s' h' = Err e.
  Proof.
    intros W P A A' H Hk.
    destruct (iterate_committed s h s' W P A H) as (C & W' & P').
    destruct (iterate_empties s s' h W P A H) as [_ E].
    destruct (iterate_act s' h') as [s''|e] eqn:E2; [|eauto]. exfalso.
    destruct (iterate_empties s' s'' h' W' P' A' E2) as [R _].
    assert (Hk' : In k (dkeys (accumulators s'))) by (now rewrite (cm_keys_a _ _ _ C)).
    apply dget_keys in Hk' as [t Ht]. destruct (R k t Ht) as (u & Hu & Hn).
    rewrite (E k t Ht) in Hu. injection Hu as <-. discriminate.
  Qed.
  Theorem iterate_missing (s : st) h k t u : wf s -> wf_pending s -> awf h ->
    dget k (accumulators s) = Some t -> dget k (updates s) = Some u -> is_none u = true ->
    exists e, iterate_act s h = Err e.
  Proof.
    intros W P A Ht Hu Hn. destruct (iterate_act s h) as [s'|e] eqn:E; [|eauto]. exfalso.
    destruct (iterate_empties s s' h W P A E) as [R _]. destruct (R k t Ht) as (u' & Hu' & Hn'). congruence.
  Qed.

  Theorem commit_balance (s : st) cs k : wf s -> wf_pending s -> Forall call_wf cs ->
    In k (dkeys (accumulators s)) ->
    pending_count s k + count (caches k) (returned s cs) =
    count iterates (returned s cs) + pending_count (run s cs) k.
  Proof.
    intros W P F Hk. revert s W P Hk. induction cs as [|c cs IH]; intros s W P Hk.
    - cbn [returned run fold_left count filter length]. lia.
    - inversion F; subst. specialize (IH H2). cbn [returned]. rewrite run_cons. unfold after.
      destruct (apply_call s c) as [s'|e] eqn:E; [|now apply IH].
      destruct (apply_call_wf s s' c W P H1 E) as [W' P'].
      assert (Hk' : In k (dkeys (accumulators s')) /\
        pending_count s k + (if caches k c then 1 else 0) = (if iterates c then 1 else 0) + pending_count s' k).
      { destruct c as [name item|h|]; cbn [apply_call caches iterates call_wf] in *.
        - rewrite cache_update_char in E. destruct (dget name (updates s)) as [u|] eqn:Eu; [|discriminate].
          destruct (is_none u) eqn:En; [|discriminate]. injection E as <-. split; [exact Hk|].
          unfold pending_count, with_updates. cbn [updates]. rewrite dget_dset. rewrite String.eqb_sym.
          destruct (String.eqb_spec k name) as [->|]; cbn [andb].
          + rewrite Eu, En. destruct (is_none item); reflexivity.
          + lia.
        - destruct (iterate_committed s h s' W P H1 E) as (C & _ & _).
          destruct (iterate_empties s s' h W P H1 E) as [R Q].
          assert (Hk' : In k (dkeys (accumulators s'))) by (now rewrite (cm_keys_a _ _ _ C)).
          split; [exact Hk'|]. unfold pending_count.
          apply dget_keys in Hk as [t Ht]. destruct (R k t Ht) as (u & -> & ->).
          apply dget_keys in Hk' as [t' Ht']. rewrite (Q k t' Ht'). reflexivity.
        - destruct (reset_effect s s' W E) as [X _]. split; [now rewrite (rs_keys _ _ X)|].
          unfold pending_count. rewrite (rs_upd _ _ X). lia. }
      destruct Hk' as [Hk' B]. specialize (IH s' W' P' Hk'). unfold count in *. cbn [filter].
      destruct (caches k c), (iterates c); cbn [length]; lia.
  Qed.

  (** ** C10 *)
  Theorem cache_commute (s s' : st) n1 i1 n2 i2 : n1 <> n2 ->
    (x <- cache_update s n1 i1 ;; cache_update x n2 i2) = Ok s' ->
    (x <- cache_update s n2 i2 ;; cache_update x n1 i1) = Ok s'.
  Proof.
    intros Hn H. rewrite !cache_update_char in *.
    destruct (dget n1 (updates s)) as [u1|] eqn:E1; [|discriminate].
    destruct (is_none u1) eqn:N1; [|discriminate]. cbn [bind] in H. rewrite cache_update_char in H.
    cbn [updates with_updates] in H. rewrite dget_dset_neq in H by congruence.
    destruct (dget n2 (updates s)) as [u2|] eqn:E2; [|discriminate].
    destruct (is_none u2) eqn:N2; [|discriminate]. injection H as <-.
    cbn [bind]. rewrite cache_update_char. cbn [updates with_updates]. rewrite dget_dset_neq by congruence.
    rewrite E1, N1. unfold with_updates. cbn [epsilon iterations residuals probabilities defaults accumulators updates depression_constant error_mode].
    do 2 f_equal. apply dset_comm; [assumption| |]; apply dget_keys; eauto.
  Qed.
  Theorem cache_any_order (s s' : st) l l' :
    NoDup (map fst l) -> Permutation l l' -> cache_all s l = Ok s' -> cache_all s l' = Ok s'.
  Proof.
    intros Hd Hp. revert s s' Hd. induction Hp as [|[n i] l l' Hp IH|[n1 i1] [n2 i2] l|l1 l2 l3 Hp1 IH1 Hp2 IH2];
      intros s s' Hd H.
    - exact H.
    - cbn [cache_all map fst] in *. apply bind_ok in H as (x & Hx & H). rewrite Hx. cbn [bind].
      inversion Hd; subst. now apply IH.
    - cbn [cache_all map fst] in *. apply bind_ok in H as (x & Hx & H). apply bind_ok in H as (y & Hy & H).
      assert (Hn : n2 <> n1) by (inversion Hd; subst; intros ->; apply H2; now left).
      pose proof (cache_commute s y n2 i2 n1 i1 Hn) as C. rewrite Hx in C. cbn [bind] in C.
      specialize (C Hy). apply bind_ok in C as (z & Hz & C). rewrite Hz. cbn [bind]. rewrite C. exact H.
    - apply IH2; [|now apply IH1]. eapply Permutation_NoDup; [apply Permutation_map; exact Hp1|assumption].
  Qed.

  (** ** C12 *)
  Theorem iterate_clip (s : st) (h1 h2 : array N) :
    a_shape h1 = a_shape h2 -> weak_float (a_dt h1) = weak_float (a_dt h2) ->
    map clip01 (a_data h1) = map clip01 (a_data h2) ->
    iterate_act s h1 = iterate_act s h2.
  Proof.
    intros Hs Hd Hv. unfold iterate_act. rewrite Hs.
    assert (E : a_clip01 h1 = a_clip01 h2).
    { unfold a_clip01, tensor_map. rewrite Hd. f_equal. unfold a_shape in Hs. rewrite Hs. f_equal. exact Hv. }
    rewrite E. reflexivity.
  Qed.
  Theorem iterate_clipped (s : st) (h : array N) :
    (forall v : val N, clip01 (clip01 v) = clip01 v) -> iterate_act s (a_clip01 h) = iterate_act s h.
  Proof.
    intros Hc. apply iterate_clip.
    - reflexivity.
    - cbn. apply weak_float_idem.
    - cbn. rewrite map_map. apply map_ext. exact Hc.
  Qed.

  (** ** C14 *)
  Lemma promote_stuck d c u : promote d c <> d -> promote d (promote c u) <> d.
  Proof. destruct d, c, u; cbn; congruence. Qed.
  Lemma promote_absorb d c : promote d c = d -> promote d (promote c d) = d.
  Proof. destruct d, c; cbn; congruence. Qed.
  Theorem iterate_low_precision (s : st) h k t a :
    wf s -> wf_pending s -> awf h ->
    dget k (accumulators s) = Some t -> In a (leaves t) ->
    promote (a_dt a) (a_dt (probabilities s)) <> a_dt a ->
    exists e, iterate_act s h = Err e.
  Proof.
    intros W P A Ht Ha Hp. destruct (iterate_act s h) as [s'|e] eqn:E; [|eauto]. exfalso.
    destruct (proj1 (iterate_ok_iff s h W P A) (ex_intro _ _ E)) as (_ & _ & R).
    destruct (R k t Ht) as (u & _ & _ & F). apply In_nth_error in Ha as [i Hi].
    apply Forall2_nth in F as [L F].
    destruct (nth_error_same_length (leaves t) (leaves u) i a L Hi) as [b Hb].
    destruct (F i a b Hi Hb) as [_ X]. revert X. now apply promote_stuck.
  Qed.
  Theorem iterate_own_dtype (s : st) h :
    wf s -> wf_pending s -> awf h -> a_shape h = batch_shape s -> a_dt h = a_dt (probabilities s) ->
    (forall k t, dget k (accumulators s) = Some t -> 
       Forall (fun a => promote (a_dt a) (a_dt (probabilities s)) = a_dt a) (leaves t) /\
       exists u, dget k (updates s) = Some u /\ is_none u = false /\ alike u t) ->
    exists s', iterate_act s h = Ok s'.
  Proof.
    intros W P A Hs Hd H. apply (iterate_ok_iff s h W P A). split; [exact Hs|]. split.
    { rewrite Hd. apply floating_weak_float. apply (wf_p_float _ W). }
    intros k t Ht. destruct (H k t Ht) as (F & u & Hu & Hn & Ha). exists u. split; [exact Hu|]. split; [exact Hn|].
    apply Forall2_nth. split; [symmetry; now apply alike_len|].
    intros i x y Hx Hy. pose proof (alike_nth u t i y x Ha Hy Hx) as X. unfold sig in X. injection X as X1 X2.
    split; [congruence|]. rewrite X2. apply promote_absorb. exact (Forall_nth _ _ _ _ F Hx).
  Qed.

  (** ** C03 and C04 over histories *)
  Lemma same_element_refl b (s s' : st) : residuals s' = residuals s -> iterations s' = iterations s ->
    accumulators s' = accumulators s -> same_element b s s'.
  Proof.
    intros E1 E2 E3. split; [now rewrite E1|]. split; [now rewrite E2|]. intros k t t' H1 H2 l a a' H3 H4.
    rewrite E3 in H2. assert (t' = t) by congruence. subst. intros. congruence.
  Qed.
  Lemma same_element_trans b (s1 s2 s3 : st) : same_frame s1 s2 -> 
    same_element b s1 s2 -> same_element b s2 s3 -> same_element b s1 s3.
  Proof.
    intros F (A1 & A2 & A3) (B1 & B2 & B3). split; [congruence|]. split; [congruence|].
    intros k t t' H1 H2 l a a' H3 H4 R HR j Hj.
    assert (Hin : In k (dkeys (accumulators s2))) by (rewrite (sf_accs _ _ F); apply dget_keys; eauto).
    apply dget_keys in Hin as [t2 Ht2]. pose proof (sf_acc _ _ F k t t2 H1 Ht2) as Al.
    destruct (nth_error_same_length (leaves t) (leaves t2) l a) as [a2 Ha2];
      [symmetry; now apply alike_len|assumption|].
    pose proof (alike_nth t2 t l a2 a Al Ha2 H3) as X. unfold sig in X. injection X as X1 _.
    assert (X2 : batch_shape s2 = batch_shape s1).
    { pose proof (sf_p _ _ F) as Y. unfold sig in Y. now injection Y. }
    rewrite <- (A3 k t t2 H1 Ht2 l a a2 H3 Ha2 R HR j Hj).
    apply (B3 k t2 t' Ht2 H2 l a2 a' Ha2 H4 R); [congruence|exact Hj].
  Qed.
  Theorem run_frozen (okv : val N -> Prop) (s : st) cs b p :
    (forall p v, okv v -> halted_at s p = true -> halted_at s (next_p s p v) = true) ->
    wf s -> wf_pending s -> Forall call_wf cs ->
    Forall (fun c => match c with CReset => False | CIter h => Forall okv (a_data h) | _ => True end) cs ->
    nth_error (a_data (probabilities s)) b = Some p -> halted_at s p = true ->
    same_element b s (run s cs) /\ nth_error (data (halted_batches (run s cs))) b = Some true.
  Proof.
    intros Stay W P F G. revert s W P Stay F p. induction G as [|c cs Hc G IH]; intros s W P Stay F p Hp Hh.
    - split; [now apply same_element_refl|]. cbn [run fold_left]. rewrite halted_data, nth_error_map, Hp. cbn. now rewrite Hh.
    - inversion F as [|? ? F1 F2]; subst. rewrite run_cons.
      destruct (after_wf s c W P F1) as [W' P'].
      pose proof (after_frame s c W P F1) as Fr.
      assert (X : same_element b s (after s c) /\ exists p', nth_error (a_data (probabilities (after s c))) b = Some p'
                  /\ halted_at s p' = true).
      { unfold after. destruct (apply_call s c) as [s'|e] eqn:E; [|split; [now apply same_element_refl|eauto]].
        destruct c as [name item|h|]; cbn [apply_call call_wf] in *; [| |contradiction].
        - rewrite cache_update_char in E. destruct (dget name (updates s)) as [u|]; [|discriminate].
          destruct (is_none u); [|discriminate]. injection E as <-.
          split; [now apply same_element_refl|]. eauto.
        - split; [exact (iterate_frozen s h s' b p W P F1 E Hp Hh)|].
          destruct (iterate_committed s h s' W P F1 E) as (C & _ & _).
          destruct (proj1 (iterate_ok_iff s h W P F1) (ex_intro _ _ E)) as (Hs & _ & _).
          assert (exists v, nth_error (a_data h) b = Some v) as [v Hv].
          { eapply nth_error_same_length; [|exact Hp]. rewrite (wf_batch_len s W). unfold awf, twf in F1.
            fold (a_shape h) in F1. fold (a_data h) in F1. congruence. }
          exists (next_p s p v). split; [now apply (cm_p _ _ _ C)|].
          apply Stay; [|exact Hh]. exact (Forall_nth _ _ _ _ Hc Hv). }
      destruct X as [X (p' & Hp' & Hh')].
      assert (E : epsilon (after s c) = epsilon s /\ depression_constant (after s c) = depression_constant s)
        by (split; [apply (sf_eps _ _ Fr)|apply (sf_dep _ _ Fr)]).
      destruct E as [E1 E2].
      assert (Eh : forall x, halted_at (after s c) x = halted_at s x) by (intros x; unfold halted_at, threshold; now rewrite E1).
      assert (En : forall x v, next_p (after s c) x v = next_p s x v).
      { intros x v. unfold next_p, weight, halts_now, scaled, threshold. now rewrite E1, E2. }
      destruct (IH (after s c) W' P') with (p := p') as [Y1 Y2]; auto.
      { intros x v Hv. rewrite En, !Eh. now apply Stay. }
      { now rewrite Eh. }
      split; [|exact Y2]. now apply (same_element_trans b s (after s c)).
  Qed.
End Step.
