(** * Proofs about sharing of containers: what a call leaves alone, what it makes *)
From Verif Require Import Base PyTree Tensor Num Utils States Controller Builder Viewer Editor Refs RefsSpec
  BaseFacts PyTreeFacts RefsFacts.

Section RefsFacts2.
  Context {N : numsys} (limit : nat).
  Notation st := (state N).
  Notation tr := (tree (array N)).
  Notation containers := (containers N).
  Notation pyval := (pyval N).

  Definition own {A} (n : nat) (P : A -> Prop) (m : R N A) : Prop :=
    forall h, n <= length h -> grows h (snd (m h)) /\ forall a, fst (m h) = Ok a -> P a.
  Lemma own_bind {A B} n (P : A -> Prop) (Q : B -> Prop) m f :
    own n P m -> (forall a, P a -> own n Q (f a)) -> own n Q (rbind m f).
  Proof.
    intros Hm Hf h L. destruct (Hm h L) as [G H]. unfold rbind. destruct (m h) as [[a|e] h1]; cbn [fst snd] in *.
    - pose proof (grows_length _ _ G) as L1. destruct (Hf a (H a eq_refl) h1) as [G2 H2]; [lia|].
      split; [eapply grows_trans; eauto|exact H2].
    - split; [exact G|discriminate].
  Qed.
  Lemma own_lift {A} n (P : A -> Prop) (r : res A) : (forall a, r = Ok a -> P a) -> own n P (rlift r).
  Proof. intros H h L. split; [apply grows_refl|exact H]. Qed.
  Lemma own_lift' {A} n (r : res A) : own n (fun a => r = Ok a) (rlift r).
  Proof. now apply own_lift. Qed.
  Lemma own_ret {A} n (P : A -> Prop) a : P a -> own n P (rret a).
  Proof. intros H h L. split; [apply grows_refl|]. cbn. now intros b [= <-]. Qed.
  Lemma own_rewrap {A} n (P : A -> Prop) e m : own n P m -> own n P (rrewrap e m).
  Proof.
    intros Hm h L. destruct (Hm h L) as [G H]. unfold rrewrap. destruct (m h) as [[a|e'] h1]; cbn in *; auto.
    split; [assumption|discriminate].
  Qed.
  Lemma own_fetch n v : own n (fun _ => True) (rfetch (N := N) limit v).
  Proof. intros h L. split; [apply grows_refl|auto]. Qed.
  Lemma own_store n t : own n (new (N := N) n) (rstore t).
  Proof.
    intros h L. unfold rstore. destruct (store_new t h) as [G H]. destruct (store t h) as [v h']. cbn in *.
    split; [assumption|]. intros a [= <-]. eapply new_le; eauto.
  Qed.
  Lemma own_merge n f v u : own n (new (N := N) n) (o_merge limit f v u).
  Proof.
    unfold o_merge. eapply own_bind; [apply own_fetch|intros ? _]. eapply own_bind; [apply own_fetch|intros ? _].
    eapply own_bind; [apply own_lift'|intros ? _]. apply own_store.
  Qed.
  Lemma own_reset_merge n m v u : own n (new (N := N) n) (o_reset_merge limit m v u).
  Proof.
    unfold o_reset_merge. eapply own_bind; [apply own_fetch|intros ? _]. eapply own_bind; [apply own_fetch|intros ? _].
    eapply own_bind; [apply own_lift'|intros ? _]. apply own_store.
  Qed.
  Definition all_new n (d : dict pyval) : Prop := forall v, In v (dvals d) -> new n v.
  Lemma own_map n f d : own n (all_new n) (o_map (N := N) limit f d).
  Proof.
    induction d as [|[k v] d IH]; cbn [o_map]; [apply own_ret; intros v []|].
    eapply own_bind; [apply own_fetch|intros ? _]. eapply own_bind; [apply own_lift'|intros ? _].
    eapply own_bind; [apply own_store|intros v' Hv]. eapply own_bind; [apply IH|intros d' Hd]. apply own_ret.
    intros u [<-|Hu]; [exact Hv|now apply Hd].
  Qed.
  Lemma own_loop n s hp names : forall accs upds,
    own n (fun p => dkeys (fst p) = dkeys accs /\
       (forall k, In k names -> In k (dkeys accs) -> (exists v, dget k (fst p) = Some v /\ new n v) /\ dget k (snd p) = Some PNone) /\
       (forall k, ~ In k names -> dget k (fst p) = dget k accs /\ dget k (snd p) = dget k upds) /\
       (forall v, In v (dvals (fst p)) -> In v (dvals accs) \/ new n v) /\
       (forall v, In v (dvals (snd p)) -> In v (dvals upds) \/ v = PNone))
      (o_iterate_loop (N := N) limit s hp names accs upds).
  Proof.
    induction names as [|k names IH]; intros accs upds; cbn [o_iterate_loop].
    { apply own_ret. cbn. repeat split; auto; contradiction. }
    eapply (own_bind _ (fun p => exists v, new n v /\ In k (dkeys accs) /\ p = (dset k v accs, dset k PNone upds))).
    - apply own_rewrap. eapply own_bind; [apply own_lift'|intros a Ha]. eapply own_bind; [apply own_lift'|intros u _].
      eapply own_bind; [apply own_lift'|intros ? _]. eapply own_bind; [apply own_merge|intros v Hv].
      apply own_ret. exists v. repeat split; auto. apply dget_keys. apply dlookup_ok in Ha. eauto.
    - intros p (v & Hv & Hk & ->). intros h L. destruct (IH (dset k v accs) (dset k PNone upds) h L) as [G H].
      split; [exact G|]. intros [a u] Ha. destruct (H _ Ha) as (K & F & O & VA & VU). cbn [fst snd] in *.
      rewrite (dkeys_dset_in _ _ _ Hk) in *. split; [exact K|]. split; [|split; [|split]].
      + intros k' [<-|I] J; [|now apply F]. destruct (in_dec string_dec k names) as [I|I]; [now apply F|].
        destruct (O _ I) as [-> ->]. rewrite !dget_dset_eq. eauto.
      + intros k' I. cbn in I. destruct (O k') as [-> ->]; [tauto|]. rewrite !dget_dset_neq by (intros ->; tauto). auto.
      + intros x Hx. destruct (VA x Hx) as [I|I]; [|auto]. destruct (In_dset _ _ _ _ I) as [->|I']; auto.
      + intros x Hx. destruct (VU x Hx) as [I|I]; [|auto]. destruct (In_dset _ _ _ _ I) as [->|I']; auto.
  Qed.
  Lemma own_reset_loop n o m names : forall out, all_new n out -> own n (all_new n) (o_reset_loop (N := N) limit o m names out).
  Proof.
    induction names as [|k names IH]; intros out Ho; cbn [o_reset_loop]; [now apply own_ret|].
    eapply own_bind; [apply own_lift'|intros ? _]. eapply own_bind; [apply own_lift'|intros ? _].
    eapply own_bind; [apply own_reset_merge|intros v Hv]. apply IH. intros u Hu.
    destruct (In_dset _ _ _ _ Hu) as [->|I]; auto.
  Qed.

  Lemma own_iterate n o p : own n (fun o' => o_defaults o' = o_defaults o /\
      (forall k v, dget k (o_accumulators o') = Some v -> new n v /\ dget k (o_updates o') = Some PNone) /\
      (forall v, In v (dvals (o_accumulators o')) -> In v (dvals (o_accumulators o)) \/ new n v) /\
      (forall v, In v (dvals (o_updates o')) -> In v (dvals (o_updates o)) \/ v = PNone)) (o_iterate (N := N) limit o p).
  Proof.
    unfold o_iterate. eapply own_bind; [apply own_lift'|intros ? _]. eapply own_bind; [apply own_lift'|intros [[x y] z] _].
    eapply own_bind; [apply own_loop|]. intros [aa u] (K & F & _ & VA & VU). cbn [fst snd] in *.
    eapply own_bind; [apply own_lift'|intros i _]. apply own_ret. cbn. repeat split; auto.
    - destruct (F k) as [(w & E & W) _]; [..|congruence]; rewrite <- K; apply dget_keys; eauto.
    - apply F; rewrite <- K; apply dget_keys; eauto.
  Qed.
  Lemma own_reset n o : own n (fun o' => o_defaults o' = o_defaults o /\ o_updates o' = o_updates o /\ all_new n (o_accumulators o')) (o_reset (N := N) limit o).
  Proof.
    unfold o_reset. do 4 (eapply own_bind; [apply own_lift'|intros ? ?]).
    eapply own_bind; [apply own_reset_loop; intros v []|intros aa Haa]. apply own_ret. cbn. auto.
  Qed.
  Lemma own_transform n o f : own n (fun o' => all_new n (o_defaults o') /\ all_new n (o_accumulators o') /\ all_new n (o_updates o')) (o_transform (N := N) limit o f).
  Proof.
    unfold o_transform. apply own_rewrap. do 3 (eapply own_bind; [apply own_lift'|intros ? ?]).
    eapply own_bind; [apply own_map|intros aa Haa]. eapply own_bind; [apply own_map|intros dd Hdd]. eapply own_bind; [apply own_map|intros uu Huu].
    apply own_ret. cbn. auto.
  Qed.

  Definition values (o : ostate N) := dvals (o_defaults o) ++ dvals (o_accumulators o) ++ dvals (o_updates o).
  Lemma in_values o v : In v (values o) <-> In v (dvals (o_defaults o)) \/ In v (dvals (o_accumulators o)) \/ In v (dvals (o_updates o)).
  Proof. unfold values. rewrite !in_app_iff. tauto. Qed.
  Lemma own_call n o c : own n (fun o' => forall v, In v (values o') -> In v (values o) \/ argument c = Some v \/ new n v) (object_call (N := N) limit o c).
  Proof.
    destruct c as [k v|k|k v|p| |f|w mode k v]; cbn [object_call argument].
    - unfold o_define. eapply own_bind; [apply own_fetch|intros ? _]. eapply own_bind; [apply own_lift'|intros ? _].
      apply own_ret. intros x. rewrite !in_values. cbn.
      intros [I|[I|I]]; destruct (In_dset _ _ _ _ I) as [->|I']; auto. right. right. exact Logic.I.
    - unfold o_delete. eapply own_bind; [apply own_lift'|intros d Hd]. eapply own_bind; [apply own_lift'|intros a Ha].
      eapply own_bind; [apply own_lift'|intros u Hu]. apply own_ret. intros x. rewrite !in_values. cbn. unfold dpop in *.
      repeat match goal with H : (if ?b then _ else _) = Ok _ |- _ => destruct b; [injection H as <-|discriminate] end.
      intros [I|[I|I]]; apply In_ddel in I; auto.
    - unfold o_cache. destruct (dget k (o_updates o)) as [x|]; [destruct (is_pnone x)|]; cbn [negb].
      + apply own_ret. intros y. rewrite !in_values. cbn. intros [I|[I|I]]; auto. destruct (In_dset _ _ _ _ I) as [->|I']; auto.
      + apply own_lift. discriminate.
      + apply own_lift. discriminate.
    - intros h L. destruct (own_iterate n o p h L) as [G H]. split; [exact G|]. intros o' E. destruct (H _ E) as (D & _ & A & U).
      intros x. rewrite !in_values, D. intros [I|[I|I]]; [auto|destruct (A _ I); auto|]. destruct (U _ I) as [J|J]; [auto|]. rewrite J. right. right. exact Logic.I.
    - intros h L. destruct (own_reset n o h L) as [G H]. split; [exact G|]. intros o' E. destruct (H _ E) as (D & U & A).
      intros x. rewrite !in_values, D, U. intros [I|[I|I]]; auto.
    - intros h L. destruct (own_transform n o f h L) as [G H]. split; [exact G|]. intros o' E. destruct (H _ E) as (D & A & U).
      intros x. rewrite !in_values. intros [I|[I|I]]; auto.
    - unfold o_set. eapply (own_bind _ (fun _ => True)); [intros h L; split; [apply grows_refl|auto]|intros s _].
      eapply own_bind; [apply own_fetch|intros ? _]. eapply own_bind; [apply own_lift'|intros ? _]. apply own_ret. intros x.
      rewrite !in_values. destruct w; cbn; intros [I|[I|I]]; auto; destruct (In_dset _ _ _ _ I) as [->|I']; auto.
  Qed.

  (** ** Calls in general *)
  Lemma call_grows o c h : grows h (snd (object_call (N := N) limit o c h)).
  Proof. apply (own_call 0 o c h). lia. Qed.
  Lemma call_holds (o : ostate N) c (h : containers) o' h' l : object_call limit o c h = (Ok o', h') -> holds h' o' l ->
    holds h o l \/ (exists v, argument c = Some v /\ reaches h v l) \/ length h <= l.
  Proof.
    intros E (v & I & Rv). destruct (own_call (length h) o c h (le_n _)) as [G H]. rewrite E in *. cbn [fst snd] in *.
    destruct (reaches_grows _ _ _ _ G Rv) as [R0|R0]; [|auto].
    destruct (H _ eq_refl v I) as [J|[J|J]]; [left; exists v; auto|right; left; eauto|].
    right. right. exact (reaches_new _ _ _ _ G J Rv).
  Qed.

  (** ** Older containers do not matter to what was newly made *)
  Definition since (n : nat) (h h2 : containers) : Prop := forall l, n <= l -> nth_error h2 l = nth_error h l.
  Lemma new_fetch (h h' h2 : containers) v : grows h h' -> new (length h) v -> since (length h) h' h2 -> fetch limit h2 v = fetch limit h' v.
  Proof. intros G Hv H. apply fetch_same. intros l Rl. apply H. exact (reaches_new _ _ _ _ G Hv Rl). Qed.
  Lemma new_dict (h h' h2 : containers) d : grows h h' -> all_new (length h) d -> since (length h) h' h2 ->
    dmapM (fetch limit h2) d = dmapM (fetch limit h') d.
  Proof. intros G Hd H. apply dmapM_ext_in. intros v I. eapply new_fetch; eauto. Qed.

  (** ** Writing *)
  Lemma overwrite_other (h : containers) l c l' : l <> l' -> nth_error (overwrite h l c) l' = nth_error h l'.
  Proof. revert l l'. induction h as [|x h IH]; intros [|l] [|l'] H; cbn; try reflexivity; [congruence|]. apply IH. congruence. Qed.
  Lemma overwrite_at (h : containers) l c : l < length h -> nth_error (overwrite h l c) l = Some c.
  Proof. revert l. induction h as [|x h IH]; intros [|l] H; cbn in *; try lia; [reflexivity|]. apply IH. lia. Qed.
  Lemma write_other (h : containers) l c l' : l <> l' -> nth_error (user_write h l c) l' = nth_error h l'.
  Proof.
    intros H. unfold user_write. destruct (nth_error h l) as [[[] ?]|]; try reflexivity;
      destruct c as [[] ?]; try reflexivity; now apply overwrite_other.
  Qed.
  Lemma sees_same (h h' : containers) (o : ostate N) : (forall l, holds h o l -> nth_error h' l = nth_error h l) ->
    resolve limit o h' = resolve limit o h.
  Proof.
    intros H. unfold resolve.
    assert (V : forall v, In v (values o) -> fetch limit h' v = fetch limit h v).
    { intros v I. apply fetch_same. intros l Rl. apply H. exists v. auto. }
    rewrite (dmapM_ext_in (fetch limit h') (fetch limit h) (o_defaults o)) by (intros v I; apply V, in_values; auto).
    rewrite (dmapM_ext_in (fetch limit h') (fetch limit h) (o_accumulators o)) by (intros v I; apply V, in_values; auto).
    rewrite (dmapM_ext_in (fetch limit h') (fetch limit h) (o_updates o)) by (intros v I; apply V, in_values; auto).
    reflexivity.
  Qed.
  Lemma fetch_bound fuel (h : containers) v (t : tr) l : fetch fuel h v = Ok t -> reaches h v l -> l < length h.
  Proof.
    intros F Rl. revert fuel t F. induction Rl as [l|l n vs v l' E I Rl IH]; intros fuel t F; (destruct fuel as [|f]; [discriminate|]); cbn in F.
    - destruct (nth_error h l) eqn:E; [|discriminate]. eapply nth_error_some_lt; eauto.
    - rewrite E in F.
      assert (X : forall ts, mapM (fetch f h) vs = Ok ts -> l' < length h).
      { clear F E. revert I. induction vs as [|u vs IHv]; intros I ts M; [destruct I|]. cbn in M. inv_bind M. inv_bind M.
        destruct I as [->|I]; [eapply IH; eauto|eapply IHv; eauto]. }
      destruct n; try discriminate; inv_bind F; eauto.
  Qed.
  Lemma sees_bound (h : containers) (o : ostate N) s l : resolve limit o h = Ok s -> holds h o l -> l < length h.
  Proof.
    intros S (v & I & Rl). apply sees_iff in S as (_ & D & A & U). apply in_values in I.
    assert (X : forall (d : dict pyval) d', dmapM (fetch limit h) d = Ok d' -> In v (dvals d) -> l < length h).
    { clear -Rl. induction d as [|[k u] d IH]; intros d' M J; [destruct J|]. cbn in M. inv_bind M. inv_bind M.
      destruct J as [<-|J]; [eapply fetch_bound; eauto|eapply IH; eauto]. }
    destruct I as [I|[I|I]]; eauto.
  Qed.

  (** ** Programs *)
  Theorem careful_run es : forall (o : ostate N) (h : containers) s, careful limit o h es -> resolve limit o h = Ok s ->
    let '(o', h') := object_run limit o h es in resolve limit o' h' = Ok (value_run s (passed limit o h es)).
  Proof.
    induction es as [|e es IH]; intros o h s C S; [exact S|]. cbn [careful] in C. destruct C as [C1 C2].
    cbn [object_run passed]. destruct e as [c|c|l c]; cbn [object_event] in *.
    - destruct C1 as [c' Hc]. rewrite Hc. destruct (sim_call limit o s h c c' S Hc) as [G H].
      destruct (object_call limit o c h) as [[o'|e] h'] eqn:E; cbn [fst snd] in *; cbn [app value_run];
        destruct (value_call s c') as [s'|e']; try contradiction.
      + apply IH; assumption.
      + apply IH; [assumption|]. exact (sees_grows _ _ _ _ _ G S).
    - cbn [app]. apply IH; [assumption|]. rewrite (sees_same h); [exact S|].
      intros l Hl. apply nth_error_app1. eapply sees_bound; eauto.
    - cbn [app]. apply IH; [assumption|]. rewrite (sees_same h); [exact S|].
      intros l' Hl. apply write_other. intros ->. contradiction.
  Qed.
  Lemma holds_same (h h' : containers) (o : ostate N) l : (forall k, holds h o k -> nth_error h' k = nth_error h k) -> holds h' o l -> holds h o l.
  Proof.
    intros H (v & I & Rl). exists v. split; [exact I|].
    assert (K : forall k, reaches h v k -> nth_error h' k = nth_error h k) by (intros k Rk; apply H; exists v; auto).
    clear H I. induction Rl as [l|l n vs u l' E I Rl IH]; [constructor|]. rewrite (K l) in E by constructor.
    eapply reaches_below; [exact E|exact I|]. apply IH. intros k Rk. apply K. eapply reaches_below; eauto.
  Qed.
  Lemma private_careful es : forall (o : ostate N) (h : containers) s (mine : nat -> Prop), resolve limit o h = Ok s ->
    (forall l, mine l -> l < length h) -> (forall l, mine l -> ~ holds h o l) ->
    private limit o h mine es -> careful limit o h es.
  Proof.
    induction es as [|e es IH]; intros o h s mine S B M P; cbn [careful]; [exact I|]. cbn [private] in P.
    destruct e as [c|c|l c]; cbn [object_event] in *.
    - assert (Q : exists c', reads limit h c = Ok c') by (destruct (object_call limit o c h) as [[]]; tauto).
      split; [exact Q|]. destruct Q as [c' Hc]. destruct (sim_call limit o s h c c' S Hc) as [G H].
      destruct (object_call limit o c h) as [[o'|e] h'] eqn:E; cbn [fst snd] in *; destruct P as [_ P];
        destruct (value_call s c') as [s'|e']; try contradiction.
      + eapply (IH _ _ s'); [exact H| | |exact P].
        * intros l [L _]. pose proof (grows_length _ _ G). specialize (B _ L). lia.
        * intros l [L A] Hl. destruct (call_holds _ _ _ _ _ _ E Hl) as [J|[(v & Hv & J)|J]].
          -- exact (M _ L J).
          -- exact (A _ Hv J).
          -- specialize (B _ L). lia.
      + eapply (IH _ _ s); [exact (sees_grows _ _ _ _ _ G S)| | |exact P].
        * intros l [L _]. pose proof (grows_length _ _ G). specialize (B _ L). lia.
        * intros l [L A] Hl. apply (M _ L). eapply holds_same; [|exact Hl].
          intros k Hk. apply (grows_old _ _ _ G). eapply sees_bound; eauto.
    - split; [exact I|].
      assert (K : forall k, holds h o k -> nth_error (h ++ [c]) k = nth_error h k).
      { intros k Hk. apply nth_error_app1. eapply sees_bound; eauto. }
      eapply (IH _ _ s); [rewrite (sees_same h); [exact S|exact K]| | |exact P].
      + intros l [L|L]; rewrite app_length; cbn; [specialize (B _ L)|]; lia.
      + intros l L Hl. pose proof (holds_same _ _ _ _ K Hl) as Hl'. destruct L as [L|L]; [exact (M _ L Hl')|].
        pose proof (sees_bound _ _ _ _ S Hl'). lia.
    - destruct P as [L P]. split; [exact (M _ L)|].
      assert (K : forall k, holds h o k -> nth_error (user_write h l c) k = nth_error h k).
      { intros k Hk. apply write_other. intros ->. exact (M _ L Hk). }
      eapply (IH _ _ s); [rewrite (sees_same h); [exact S|exact K]| | |exact P].
      + intros k Lk. specialize (B _ Lk). assert (X : forall (hh : containers) l c, length (overwrite hh l c) = length hh).
        { induction hh as [|x hh IHh]; intros [|l0] c0; cbn; auto. }
        unfold user_write. destruct (nth_error h l) as [[[] ?]|]; try assumption; destruct c as [[] ?]; try assumption; now rewrite X.
      + intros k Lk Hk. exact (M _ Lk (holds_same _ _ _ _ K Hk)).
  Qed.

  (** ** Deciding the disciplines on concrete programs *)
  Fixpoint locs (fuel : nat) (h : containers) (v : pyval) : list nat :=
    match v, fuel with
    | PRef l, S f => l :: match nth_error h l with Some (_, vs) => flat_map (locs f h) vs | None => [] end
    | PRef l, 0 => [l]
    | _, _ => []
    end.
  Lemma locs_ok fuel (h : containers) v (t : tr) l : fetch fuel h v = Ok t -> reaches h v l -> In l (locs fuel h v).
  Proof.
    intros F Rl. revert fuel t F. induction Rl as [l|l n vs v l' E I Rl IH]; intros fuel t F; (destruct fuel as [|f]; [discriminate|]); cbn in F; cbn [locs].
    - now left.
    - rewrite E in F. rewrite E. right. apply in_flat_map. exists v. split; [exact I|].
      assert (X : forall ts, mapM (fetch f h) vs = Ok ts -> exists t, fetch f h v = Ok t).
      { clear F E IH. induction vs as [|u vs IHv]; intros ts M; [destruct I|]. cbn in M. inv_bind M. inv_bind M.
        destruct I as [->|I]; [eauto|eapply IHv; eauto]. }
      destruct n; try discriminate; inv_bind F; destruct (X _ E0) as [t' Ht]; eapply IH; exact Ht.
  Qed.
  Definition mem (l : nat) (ls : list nat) : bool := existsb (Nat.eqb l) ls.
  Lemma mem_in l ls : mem l ls = true <-> In l ls.
  Proof.
    unfold mem. rewrite existsb_exists. split; [intros (x & I & E); apply Nat.eqb_eq in E; now subst|].
    intros I. exists l. split; [assumption|apply Nat.eqb_refl].
  Qed.
  Definition arg_locs (h : containers) (c : ocall N pyval) : list nat :=
    match argument c with Some v => locs limit h v | None => [] end.
  Fixpoint private_b (o : ostate N) (h : containers) (mine : list nat) (es : list (event N)) : bool :=
    match es with
    | [] => true
    | e :: es' =>
        let '(o', h') := object_event limit o h e in
        match e with
        | ECall c => is_ok (reads limit h c) && private_b o' h' (filter (fun l => negb (mem l (arg_locs h c))) mine) es'
        | EMake _ => private_b o' h' (length h :: mine) es'
        | EWrite l _ => mem l mine && private_b o' h' mine es'
        end
    end.
  Lemma private_ok es : forall (o : ostate N) (h : containers) mine (P : nat -> Prop),
    private_b o h mine es = true -> (forall l, In l mine -> P l) -> private limit o h P es.
  Proof.
    induction es as [|e es IH]; intros o h mine P B M; cbn [private]; [exact I|]. cbn [private_b] in B.
    destruct (object_event limit o h e) as [o' h']. destruct e as [c|c|l c].
    - apply andb_true_iff in B as [B1 B2]. apply is_ok_true in B1. split; [exact B1|]. eapply IH; [exact B2|].
      intros l Il. apply filter_In in Il as [Il Nl]. split; [now apply M|]. intros v Hv Rl.
      apply negb_true_iff in Nl. assert (mem l (arg_locs h c) = true); [|congruence]. apply mem_in.
      unfold arg_locs. rewrite Hv. destruct B1 as [c' Hc].
      assert (X : exists t, fetch limit h v = Ok t).
      { destruct c; cbn in Hv, Hc; try discriminate Hv; injection Hv as <-; inv_bind Hc; eauto. }
      destruct X as [t Ht]. eapply locs_ok; eauto.
    - eapply IH; [exact B|]. intros l [<-|I0]; [now right|left; now apply M].
    - apply andb_true_iff in B as [B1 B2]. split; [apply M; now apply mem_in|]. eapply IH; eauto.
  Qed.
  Definition held (h : containers) (o : ostate N) : list nat := flat_map (locs limit h) (values o).
  Lemma held_ok (h : containers) (o : ostate N) l : is_ok (resolve limit o h) = true -> holds h o l -> In l (held h o).
  Proof.
    intros B (v & I & Rl). apply is_ok_true in B as [s S]. apply sees_iff in S as (_ & D & A & U).
    apply in_flat_map. exists v. split; [exact I|]. apply in_values in I.
    assert (X : forall (d : dict pyval) d', dmapM (fetch limit h) d = Ok d' -> In v (dvals d) -> exists t, fetch limit h v = Ok t).
    { clear. induction d as [|[k u] d IH]; intros d' M J; [destruct J|]. cbn in M. inv_bind M. inv_bind M.
      destruct J as [<-|J]; [cbn; eauto|eapply IH; eauto]. }
    assert (exists t, fetch limit h v = Ok t) as [t Ht] by (destruct I as [I|[I|I]]; eauto).
    eapply locs_ok; eauto.
  Qed.
  Fixpoint careful_b (o : ostate N) (h : containers) (es : list (event N)) : bool :=
    match es with
    | [] => true
    | e :: es' =>
        match e with
        | ECall c => is_ok (reads limit h c)
        | EMake _ => true
        | EWrite l _ => is_ok (resolve limit o h) && negb (mem l (held h o))
        end && let '(o', h') := object_event limit o h e in careful_b o' h' es'
    end.
  Lemma careful_ok es : forall (o : ostate N) (h : containers), careful_b o h es = true -> careful limit o h es.
  Proof.
    induction es as [|e es IH]; intros o h B; cbn [careful]; [exact I|]. cbn [careful_b] in B.
    apply andb_true_iff in B as [B1 B2]. destruct (object_event limit o h e) as [o' h']. split; [|now apply IH].
    destruct e as [c|c|l c]; [now apply is_ok_true|exact I|]. apply andb_true_iff in B1 as [B0 B1]. intros Hl.
    apply held_ok, mem_in in Hl; [|exact B0]. now rewrite Hl in B1.
  Qed.
End RefsFacts2.
