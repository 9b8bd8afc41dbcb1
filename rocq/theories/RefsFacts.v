(** * Proofs about sharing of containers *)
From Verif Require Import Base PyTree Tensor Num Utils States Controller Builder Viewer Editor Refs RefsSpec
  BaseFacts PyTreeFacts.

(** ** Dictionaries read entry by entry *)
Lemma dmapM_dset {V W} (f : V -> res W) k v w d d' :
  dmapM f d = Ok d' -> f v = Ok w -> dmapM f (dset k v d) = Ok (dset k w d').
Proof.
  revert d'. induction d as [|[k1 v1] d IH]; intros d' H Hv; cbn in H.
  - injection H as <-. cbn. rewrite Hv. reflexivity.
  - inv_bind H. inv_bind H. injection H as <-. cbn. destruct (String.eqb k k1); cbn.
    + rewrite Hv. cbn. now rewrite E0.
    + rewrite E. cbn. now rewrite (IH _ E0 Hv).
Qed.
Lemma dmapM_ddel {V W} (f : V -> res W) k d d' :
  dmapM f d = Ok d' -> dmapM f (ddel k d) = Ok (ddel k d').
Proof.
  revert d'. induction d as [|[k1 v1] d IH]; intros d' H; cbn in H.
  - injection H as <-. reflexivity.
  - inv_bind H. inv_bind H. injection H as <-. cbn. destruct (String.eqb k k1); cbn; [assumption|].
    rewrite E. cbn. now rewrite (IH _ E0).
Qed.
Lemma dmapM_ext_in {V W} (f g : V -> res W) d : (forall v, In v (dvals d) -> f v = g v) -> dmapM f d = dmapM g d.
Proof.
  induction d as [|[k v] d IH]; intros H; cbn; [reflexivity|]. rewrite (H v) by now left.
  rewrite IH; [reflexivity|]. intros u Hu. apply H. now right.
Qed.
Lemma dmapM_impl {V W} (f g : V -> res W) d d' : (forall v w, f v = Ok w -> g v = Ok w) -> dmapM f d = Ok d' -> dmapM g d = Ok d'.
Proof.
  intros I. revert d'. induction d as [|[k v] d IH]; intros d' H; cbn in *; [assumption|].
  inv_bind H. inv_bind H. rewrite (I _ _ E). cbn. now rewrite (IH _ E0).
Qed.
Lemma mapM_impl {V W} (f g : V -> res W) d d' : (forall v w, f v = Ok w -> g v = Ok w) -> mapM f d = Ok d' -> mapM g d = Ok d'.
Proof.
  intros I. revert d'. induction d as [|v d IH]; intros d' H; cbn in *; [assumption|].
  inv_bind H. inv_bind H. rewrite (I _ _ E). cbn. now rewrite (IH _ E0).
Qed.
Lemma In_dset {V} (k : string) (v u : V) d : In u (dvals (dset k v d)) -> u = v \/ In u (dvals d).
Proof.
  unfold dvals. induction d as [|[k1 v1] d IH]; cbn; [intuition|]. destruct (String.eqb k k1); cbn; intuition.
Qed.
Lemma In_ddel {V} (k : string) (u : V) d : In u (dvals (ddel k d)) -> In u (dvals d).
Proof.
  unfold dvals. induction d as [|[k1 v1] d IH]; cbn; [auto|]. destruct (String.eqb k k1); cbn; intuition.
Qed.

Section RefsFacts.
  Context {N : numsys} (limit : nat).
  Notation st := (state N).
  Notation tr := (tree (array N)).
  Notation containers := (containers N).
  Notation pyval := (pyval N).
  Notation fetch := (@fetch N).

  (** ** Growth: containers are only added, and the added ones refer to added ones *)
  Definition new (n : nat) (v : pyval) : Prop := match v with PRef k => n <= k | _ => True end.
  Definition grows (h h' : containers) : Prop :=
    exists m, h' = h ++ m /\ Forall (fun c => Forall (new (length h)) (snd c)) m.
  Lemma grows_refl h : grows h h.
  Proof. exists []. now rewrite app_nil_r. Qed.
  Lemma new_le n n' v : n' <= n -> new n v -> new n' v.
  Proof. destruct v; cbn; auto; lia. Qed.
  Lemma grows_trans h1 h2 h3 : grows h1 h2 -> grows h2 h3 -> grows h1 h3.
  Proof.
    intros (m & -> & F) (m' & -> & F'). exists (m ++ m'). rewrite app_assoc. split; [reflexivity|].
    apply Forall_app; split; [assumption|]. eapply Forall_impl; [|exact F']. intros c Hc.
    eapply Forall_impl; [|exact Hc]. intros v. apply new_le. rewrite app_length. lia.
  Qed.
  Lemma grows_length h h' : grows h h' -> length h <= length h'.
  Proof. intros (m & -> & _). rewrite app_length. lia. Qed.
  Lemma grows_nth h h' l c : grows h h' -> nth_error h l = Some c -> nth_error h' l = Some c.
  Proof. intros (m & -> & _) H. rewrite nth_error_app1; [assumption|]. eapply nth_error_some_lt; eauto. Qed.
  Lemma grows_old h h' l : grows h h' -> l < length h -> nth_error h' l = nth_error h l.
  Proof. intros (m & -> & _) H. now apply nth_error_app1. Qed.

  Lemma fetch_grows fuel h h' v t : grows h h' -> fetch fuel h v = Ok t -> fetch fuel h' v = Ok t.
  Proof.
    intros G. revert v t. induction fuel as [|fuel IH]; intros [a| |l] t H; cbn in *; try assumption.
    destruct (nth_error h l) as [[n vs]|] eqn:E; [|discriminate]. rewrite (grows_nth _ _ _ _ G E).
    destruct n; try assumption; inv_bind H; rewrite (mapM_impl _ _ _ _ IH E0); assumption.
  Qed.

  (** ** Reachability *)
  Lemma fetch_same fuel h h' v : (forall l, reaches h v l -> nth_error h' l = nth_error h l) ->
    fetch fuel h' v = fetch fuel h v.
  Proof.
    revert v. induction fuel as [|fuel IH]; intros [a| |l] H; cbn; try reflexivity.
    rewrite (H l (reaches_here _ _)). destruct (nth_error h l) as [[n vs]|] eqn:E; [|reflexivity].
    assert (M : mapM (fetch fuel h') vs = mapM (fetch fuel h) vs).
    { assert (I : forall v, In v vs -> fetch fuel h' v = fetch fuel h v).
      { intros v Hv. apply IH. intros l' R. apply H. eapply reaches_below; eauto. }
      clear -I. induction vs as [|v vs IHv]; cbn; [reflexivity|]. rewrite (I v) by now left.
      rewrite IHv; [reflexivity|]. intros u Hu. apply I. now right. }
    now rewrite M.
  Qed.
  Lemma reaches_new h h' v l : grows h h' -> new (length h) v -> reaches h' v l -> length h <= l.
  Proof.
    intros (m & -> & F) Hn R. induction R as [l|l n vs v l' E I R IH]; cbn in Hn; [assumption|]. apply IH.
    rewrite nth_error_app2 in E by assumption. apply nth_error_In in E.
    rewrite Forall_forall in F. specialize (F _ E). rewrite Forall_forall in F. now apply F.
  Qed.
  Lemma reaches_grows h h' v l : grows h h' -> reaches h' v l -> reaches h v l \/ length h <= l.
  Proof.
    intros G R. induction R as [l|l n vs v l' E I R IH]; [left; constructor|].
    destruct (Nat.lt_ge_cases l (length h)) as [L|L].
    - rewrite (grows_old _ _ _ G L) in E. destruct IH as [IH|IH]; [left|now right]. eapply reaches_below; eauto.
    - right. eapply (reaches_new h h' (PRef l)); [exact G|exact L|]. eapply reaches_below; eauto.
  Qed.

  (** ** Storing and reading back *)
  Fixpoint fits (fuel : nat) (td : treedef) : bool :=
    match td with
    | Leaf _ => true
    | Node NNone cs => match cs with [] => true | _ => false end
    | Node _ cs => match fuel with 0 => false | S fuel' => forallb (fits fuel') cs end
    end.
  Lemma fetch_fits fuel h v t : fetch fuel h v = Ok t -> fits fuel (structure t) = true.
  Proof.
    revert v t. induction fuel as [|fuel IH]; intros [a| |l] t H; cbn in H; try (injection H as <-; reflexivity); [discriminate|].
    destruct (nth_error h l) as [[n vs]|]; [|discriminate].
    assert (M : forall ts, mapM (fetch fuel h) vs = Ok ts -> forallb (fits fuel) (map structure ts) = true).
    { clear H l n. induction vs as [|v vs IHv]; intros ts H; cbn in H; [injection H as <-; reflexivity|].
      inv_bind H. inv_bind H. injection H as <-. cbn. now rewrite (IH _ _ E), (IHv _ E0). }
    destruct n; try discriminate; inv_bind H; injection H as <-; cbn; now apply M.
  Qed.

  Definition store_list : list tr -> containers -> list pyval * containers :=
    fix go (cs : list tr) (h : containers) : list pyval * containers :=
      match cs with
      | [] => ([], h)
      | c :: cs' => let '(v, h1) := store c h in let '(vs, h2) := go cs' h1 in (v :: vs, h2)
      end.
  Lemma store_Node n cs h : n <> NNone ->
    store (Node n cs) h = let '(vs, h1) := store_list cs h in (PRef (length h1), h1 ++ [(n, vs)]).
  Proof. destruct n; [congruence|reflexivity..]. Qed.

  Lemma store_new t : forall h, grows h (snd (store t h)) /\ new (length h) (fst (store t h)).
  Proof.
    induction t as [a|n cs IH] using tree_ind'; intros h; [split; [apply grows_refl|exact I]|].
    destruct (node_eq_dec n NNone) as [->|Hn]; [split; [apply grows_refl|exact I]|]. rewrite store_Node by assumption.
    assert (L : grows h (snd (store_list cs h)) /\ Forall (new (length h)) (fst (store_list cs h))).
    { clear Hn. revert h. induction IH as [|c cs Hc IHf IH]; intros h; [split; [apply grows_refl|constructor]|].
      cbn [store_list]. fold store_list. destruct (Hc h) as [G Hv]. destruct (store c h) as [v h1]. cbn [fst snd] in *.
      destruct (IH h1) as [G2 F]. destruct (store_list cs h1) as [vs h2]. cbn [fst snd] in *.
      split; [eapply grows_trans; eauto|]. constructor; [assumption|]. eapply Forall_impl; [|exact F].
      intros u. apply new_le. now apply grows_length. }
    destruct (store_list cs h) as [vs h1]. cbn [fst snd] in *. destruct L as [(m & -> & F) Fv]. split.
    - exists (m ++ [(n, vs)]). rewrite app_assoc. split; [reflexivity|]. apply Forall_app. split; [assumption|].
      constructor; [exact Fv|constructor].
    - cbn. rewrite app_length. lia.
  Qed.
  Lemma store_fetch t : forall fuel h, fits fuel (structure t) = true ->
    fetch fuel (snd (store t h)) (fst (store t h)) = Ok t.
  Proof.
    induction t as [a|n cs IH] using tree_ind'; intros fuel h F; [destruct fuel; reflexivity|].
    rewrite structure_Node in F. destruct (node_eq_dec n NNone) as [->|Hn].
    - destruct fuel, cs; cbn in F; try discriminate F; reflexivity.
    - assert (F' : exists f, fuel = S f /\ forallb (fits f) (map structure cs) = true).
      { destruct n; [congruence| | | |]; (destruct fuel as [|f]; cbn in F; [discriminate F|]); eauto. }
      clear F. destruct F' as (f & -> & F). rewrite store_Node by assumption.
      assert (L : mapM (fetch f (snd (store_list cs h))) (fst (store_list cs h)) = Ok cs).
      { clear Hn. revert h F. induction IH as [|c cs Hc IHf IH]; intros h F; [reflexivity|].
        cbn in F. apply andb_true_iff in F as [F1 F2]. cbn [store_list]. fold store_list.
        specialize (Hc f h F1). destruct (store c h) as [v h1]. cbn [fst snd] in Hc. specialize (IH h1 F2).
        assert (G : grows h1 (snd (store_list cs h1))).
        { clear. revert h1. induction cs as [|c cs IH]; intros h; [apply grows_refl|]. cbn [store_list]. fold store_list.
          destruct (store_new c h) as [G _]. destruct (store c h) as [v h1]. specialize (IH h1).
          destruct (store_list cs h1). cbn in *. eapply grows_trans; eauto. }
        destruct (store_list cs h1) as [vs h2]. cbn [fst snd] in *. cbn [mapM].
        rewrite (fetch_grows _ _ _ _ _ G Hc). cbn. now rewrite IH. }
      destruct (store_list cs h) as [vs h1]. cbn [fst snd] in *. cbn [Refs.fetch].
      rewrite nth_error_app2, Nat.sub_diag by lia. cbn [nth_error].
      assert (L' : mapM (fetch f (h1 ++ [(n, vs)])) vs = Ok cs).
      { revert L. clear. revert cs. induction vs as [|v vs IH]; intros cs L; cbn in *; [assumption|].
        inv_bind L. inv_bind L.
        assert (X : forall u t, fetch f h1 u = Ok t -> fetch f (h1 ++ [(n, v :: vs)]) u = Ok t).
        { clear. induction f as [|f IH]; intros [x| |l] t H; cbn in *; try assumption.
          destruct (nth_error h1 l) as [[n' us]|] eqn:E; [|discriminate].
          rewrite nth_error_app1, E by (eapply nth_error_some_lt; eauto).
          destruct n'; try assumption; inv_bind H; rewrite (mapM_impl _ _ _ _ IH E0); assumption. }
        rewrite (X _ _ E). cbn. rewrite (mapM_impl _ _ _ _ X E0). assumption. }
      rewrite L'. destruct n; [congruence|reflexivity..].
  Qed.

  (** ** Programs against values *)
  Definition sim {A B} (P : containers -> A -> B -> Prop) (m : R N A) (r : res B) (h : containers) : Prop :=
    grows h (snd (m h)) /\
    match fst (m h), r with
    | Ok a, Ok b => P (snd (m h)) a b
    | Err e, Err e' => e = e'
    | _, _ => False
    end.
  Lemma sim_bind {A B C D} (P : containers -> A -> B -> Prop) (Q : containers -> C -> D -> Prop) m r f g h :
    sim P m r h -> (forall a b h', grows h h' -> P h' a b -> sim Q (f a) (g b) h') ->
    sim Q (rbind m f) (bind r g) h.
  Proof.
    intros [G H] K. unfold sim, rbind. destruct (m h) as [[a|e] h1]; cbn [fst snd] in *; destruct r as [b|e']; try contradiction.
    - destruct (K a b h1 G H) as [G2 H2]. split; [eapply grows_trans; eauto|exact H2].
    - cbn. auto.
  Qed.
  Lemma sim_ret {A B} (P : containers -> A -> B -> Prop) a b h : P h a b -> sim P (rret a) (Ok b) h.
  Proof. intros H. split; [apply grows_refl|exact H]. Qed.
  Lemma sim_lift {A} (r : res A) h : sim (fun _ a b => a = b) (rlift r) r h.
  Proof. split; [apply grows_refl|]. cbn. destruct r; reflexivity. Qed.
  Lemma sim_rewrap {A B} (P : containers -> A -> B -> Prop) e m r h : sim P m r h -> sim P (rrewrap e m) (rewrap e r) h.
  Proof.
    intros [G H]. unfold sim, rrewrap. destruct (m h) as [[a|e1] h1]; cbn in *; destruct r; cbn; try contradiction; auto.
  Qed.
  Definition ttree (h : containers) (v : pyval) (t : tr) : Prop := fetch limit h v = Ok t.
  Definition tdict (h : containers) (d : dict pyval) (d' : dict tr) : Prop := dmapM (fetch limit h) d = Ok d'.
  Lemma ttree_grows h h' v t : grows h h' -> ttree h v t -> ttree h' v t.
  Proof. apply fetch_grows. Qed.
  Lemma tdict_grows h h' d d' : grows h h' -> tdict h d d' -> tdict h' d d'.
  Proof. intros G. apply dmapM_impl. intros v w. now apply fetch_grows. Qed.
  Lemma sim_fetch h v t : ttree h v t -> sim (fun h' a b => a = b /\ h' = h) (rfetch limit v) (Ok t) h.
  Proof. intros H. split; [apply grows_refl|]. unfold rfetch. cbn. rewrite H. auto. Qed.
  Lemma sim_store t h : fits limit (structure t) = true -> sim ttree (rstore t) (Ok t) h.
  Proof.
    intros F. unfold sim, rstore. destruct (store_new t h) as [G _]. pose proof (store_fetch t limit h F) as E.
    destruct (store t h) as [v h']. cbn [fst snd] in *. split; assumption.
  Qed.

  Lemma merge_structure {A B C} (f : A -> B -> res C) t u w : merge_pytrees f t u = Ok w -> structure w = structure t.
  Proof. unfold merge_pytrees. intros H. inv_bind H. inv_bind H. now apply unflatten_inv in H. Qed.
  Lemma map_structure {A B} (f : A -> res B) t w : tree_mapM f t = Ok w -> structure w = structure t.
  Proof. intros H. now apply tree_mapM_ok in H. Qed.
  Lemma sim_read {A B} (Q : containers -> A -> B -> Prop) h v t f (g : res B) :
    ttree h v t -> sim Q (f t) g h -> sim Q (rbind (rfetch limit v) f) g h.
  Proof. intros H K. unfold sim, rbind, rfetch in *. unfold ttree in H. rewrite H. exact K. Qed.
  Lemma sim_keep h h0 t (r : res tr) : fits limit t = true -> (forall w, r = Ok w -> structure w = t) -> grows h0 h ->
    sim ttree (rbind (rlift r) rstore) r h.
  Proof.
    intros F K G. unfold sim, rbind, rlift. destruct r as [w|e]; [|split; [apply grows_refl|reflexivity]].
    apply sim_store. rewrite (K w eq_refl). exact F.
  Qed.
  Lemma sim_merge f h v u t w : ttree h v t -> ttree h u w -> sim ttree (o_merge limit f v u) (merge_pytrees f t w) h.
  Proof.
    intros H H'. unfold o_merge. eapply sim_read; [exact H|]. eapply sim_read; [exact H'|].
    eapply sim_keep with (h0 := h); [eapply fetch_fits; exact H| |apply grows_refl]. intros x. apply merge_structure.
  Qed.
  Lemma sim_reset_merge m h v u t w : ttree h v t -> ttree h u w ->
    sim ttree (o_reset_merge limit m v u) (merge_pytrees (reset_leaf m t) t w) h.
  Proof.
    intros H H'. unfold o_reset_merge. eapply sim_read; [exact H|]. eapply sim_read; [exact H'|].
    eapply sim_keep with (h0 := h); [eapply fetch_fits; exact H| |apply grows_refl]. intros x. apply merge_structure.
  Qed.
  Lemma sim_map f h d d' : tdict h d d' -> sim tdict (o_map limit f d) (dmapM (tree_mapM f) d') h.
  Proof.
    revert h d'. induction d as [|[k v] d IH]; intros h d' H.
    - injection H as <-. now apply sim_ret.
    - unfold tdict in H. cbn in H. inv_bind H. inv_bind H. injection H as <-. cbn [o_map dmapM].
      eapply sim_read; [exact E|].
      pose proof (fetch_fits _ _ _ _ E) as F.
      assert (K : sim ttree (rbind (rlift (tree_mapM f a)) rstore) (tree_mapM f a) h).
      { eapply sim_keep with (h0 := h); [exact F| |apply grows_refl]. intros x. apply map_structure. }
      assert (A : forall X Y (m : R N X) (q : X -> R N pyval) (r : pyval -> R N Y),
                 rbind m (fun x => rbind (q x) r) = rbind m (fun x => rbind (q x) r)) by reflexivity.
      assert (S : sim tdict (rbind (rbind (rlift (tree_mapM f a)) rstore)
                   (fun v' => rbind (o_map limit f d) (fun d'' => rret ((k, v') :: d''))))
                 (w <- tree_mapM f a ;; ws <- dmapM (tree_mapM f) a0 ;; Ok ((k, w) :: ws)) h).
      { eapply sim_bind; [exact K|]. intros v' w h1 G1 T1. eapply sim_bind; [apply IH; exact (tdict_grows _ _ _ _ G1 E0)|].
        intros d1 ws h2 G2 T2. apply sim_ret. unfold tdict. cbn. rewrite (ttree_grows _ _ _ _ G2 T1). cbn.
        unfold tdict in T2. now rewrite T2. }
      clear A. unfold sim, rbind in *. unfold rlift in *. destruct (tree_mapM f a) as [w|e]; cbn in *; exact S.
  Qed.

  Lemma dict_get h d d' k : tdict h d d' ->
    match dget k d, dget k d' with Some v, Some t => ttree h v t | None, None => True | _, _ => False end.
  Proof. intros H. exact (dmapM_get _ _ _ k H). Qed.
  Lemma sim_lookup h d d' k : tdict h d d' -> sim (fun h' v t => h' = h /\ ttree h v t) (rlift (dlookup k d)) (dlookup k d') h.
  Proof.
    intros H. pose proof (dict_get _ _ _ k H) as G. unfold dlookup. split; [apply grows_refl|]. cbn.
    destruct (dget k d), (dget k d'); try contradiction; auto.
  Qed.
  Lemma sim_pop h d d' k : tdict h d d' -> sim (fun h' a b => h' = h /\ tdict h a b) (rlift (dpop k d)) (dpop k d') h.
  Proof.
    intros H. pose proof (dict_get _ _ _ k H) as G. unfold dpop, dmem. split; [apply grows_refl|]. cbn.
    destruct (dget k d), (dget k d'); try contradiction; cbn; auto. split; [reflexivity|]. now apply dmapM_ddel.
  Qed.
  Lemma none_agree h v t : ttree h v t -> is_pnone v = is_none t.
  Proof.
    destruct v as [a| |l]; unfold ttree; destruct limit as [|f]; cbn; intros H; try (injection H as <-; reflexivity); [discriminate|].
    destruct (nth_error h l) as [[n vs]|]; [|discriminate]. destruct n; try discriminate; inv_bind H; injection H as <-; reflexivity.
  Qed.

  (** The controller reads as [s]. *)
  Definition sees (h : containers) (o : ostate N) (s : st) : Prop := resolve limit o h = Ok s.
  Lemma sees_iff h o s : sees h o s <->
    core o = mkState (epsilon s) (iterations s) (residuals s) (probabilities s) [] [] [] (depression_constant s) (error_mode s) /\
    tdict h (o_defaults o) (defaults s) /\ tdict h (o_accumulators o) (accumulators s) /\ tdict h (o_updates o) (updates s).
  Proof.
    unfold sees, resolve, tdict, core. destruct o, s; cbn. split.
    - intros H. inv_bind H. inv_bind H. inv_bind H. injection H as <- <- <- <- <- <- <- <- <-. auto.
    - intros (H & -> & -> & ->). cbn. injection H as <- <- <- <- <- <-. reflexivity.
  Qed.
  Lemma sees_grows h h' o s : grows h h' -> sees h o s -> sees h' o s.
  Proof. rewrite !sees_iff. intros G (C & A & B & D). repeat split; auto; eapply tdict_grows; eauto. Qed.
  Lemma sees_make h e i r p df ac up dc em dd aa uu : tdict h df dd -> tdict h ac aa -> tdict h up uu ->
    sees h (mkO e i r p df ac up dc em) (mkState e i r p dd aa uu dc em).
  Proof. intros A B C. apply sees_iff. cbn. auto. Qed.

  Lemma pnone_any h d d' : tdict h d d' ->
    existsb (fun kv => negb (is_pnone (snd kv))) d = existsb (fun kv => negb (is_none (snd kv))) d'.
  Proof.
    revert d'. induction d as [|[k v] d IH]; intros d' H; unfold tdict in H; cbn in H; [injection H as <-; reflexivity|].
    inv_bind H. inv_bind H. injection H as <-. cbn. rewrite (none_agree _ _ _ E). f_equal. now apply IH.
  Qed.
  Lemma tdict_keys h d d' : tdict h d d' -> dkeys d' = dkeys d.
  Proof. apply dmapM_keys. Qed.
  Lemma tnone_seen h : ttree h PNone tnone.
  Proof. unfold ttree. destruct limit; reflexivity. Qed.

  Lemma sim_loop s s0 hp names : (forall a b, update_accumulator s0 hp a b = update_accumulator s hp a b) ->
    forall h accs upds accs' upds',
    tdict h accs accs' -> tdict h upds upds' ->
    sim (fun h' p q => tdict h' (fst p) (fst q) /\ tdict h' (snd p) (snd q))
      (o_iterate_loop limit s0 hp names accs upds) (iterate_loop s hp names accs' upds') h.
  Proof.
    intros U. induction names as [|k names IH]; intros h accs upds accs' upds' A B; [apply sim_ret; auto|].
    cbn [o_iterate_loop iterate_loop].
    eapply (sim_bind (fun h' (p : dict pyval * dict pyval) (q : dict tr * dict tr) => tdict h' (fst p) (fst q) /\ tdict h' (snd p) (snd q))).
    - apply sim_rewrap. eapply sim_bind; [apply sim_lookup; exact A|]. intros v t h1 G1 [-> T1].
      eapply sim_bind; [apply sim_lookup; exact B|]. intros u w h2 G2 [-> T2].
      rewrite (none_agree _ _ _ T2). eapply sim_bind; [apply sim_lift|]. intros [] [] h3 G3 _.
      assert (M : merge_pytrees (update_accumulator s hp) t w = merge_pytrees (update_accumulator s0 hp) t w).
      { unfold merge_pytrees. destruct (guard _ _); cbn; [|reflexivity]. f_equal.
        generalize (leaves w). induction (leaves t) as [|x l IHl]; intros [|y l']; cbn; try reflexivity. now rewrite U, IHl. }
      rewrite M. eapply sim_bind; [apply sim_merge; eapply ttree_grows; eauto|].
      intros v' t' h4 G4 T4. pose proof (grows_trans _ _ _ G3 G4) as G. apply sim_ret. cbn. split; apply dmapM_dset.
      + exact (tdict_grows _ _ _ _ G A).
      + exact T4.
      + exact (tdict_grows _ _ _ _ G B).
      + apply tnone_seen.
    - intros [a1 u1] [a2 u2] h1 G1 [T1 T2]. now apply IH.
  Qed.

  Lemma sim_reset_loop o s m names : forall h out out', sees h o s -> tdict h out out' ->
    sim tdict (o_reset_loop limit o m names out) (reset_loop s m names out') h.
  Proof.
    induction names as [|k names IH]; intros h out out' S T; [apply sim_ret; auto|]. cbn [o_reset_loop reset_loop].
    apply sees_iff in S as S'. destruct S' as (_ & D & A & _).
    eapply sim_bind; [apply sim_lookup; exact A|]. intros v t h1 G1 [-> T1].
    eapply sim_bind; [apply sim_lookup; exact D|]. intros u w h2 G2 [-> T2].
    eapply sim_bind; [apply sim_reset_merge; eassumption|]. intros v' t' h4 G4 T4.
    apply IH; [exact (sees_grows _ _ _ _ G4 S)|]. apply dmapM_dset; [exact (tdict_grows _ _ _ _ G4 T)|exact T4].
  Qed.

  (** ** Each call does to the objects what the value model says *)
  Theorem sim_call o s h c c' : sees h o s -> reads limit h c = Ok c' ->
    sim sees (object_call limit o c) (value_call s c') h.
  Proof.
    intros S Hr. apply sees_iff in S as S'. destruct S' as (C & D & A & U).
    destruct o as [oe oi ores op od oa ou odc oem], s as [se si sres sp sd sa su sdc sem]. cbn in C. injection C as -> -> -> -> -> ->.
    cbn [o_defaults o_accumulators o_updates defaults accumulators updates] in D, A, U.
    destruct c as [k v|k|k v|p| |f|w mode k v]; cbn in Hr.
    - inv_bind Hr. injection Hr as <-. cbn [object_call value_call]. unfold o_define, define_directly, define.
      eapply sim_read; [exact E|]. eapply sim_bind; [apply sim_lift|]. intros [] [] h1 G1 _. unfold replace. cbn.
      apply sim_ret. apply sees_make; (apply dmapM_dset; [eapply tdict_grows; eauto|]); try (eapply ttree_grows; eauto; fail). apply tnone_seen.
    - injection Hr as <-. cbn [object_call value_call]. unfold o_delete, delete_definition. cbn.
      eapply sim_bind; [apply sim_pop; exact D|]. intros d d' h1 G1 [-> T1].
      eapply sim_bind; [apply sim_pop; exact A|]. intros a a' h1' G1' [-> T2].
      eapply sim_bind; [apply sim_pop; exact U|]. intros u u' h1'' G1'' [-> T3]. unfold replace. cbn.
      apply sim_ret. now apply sees_make.
    - inv_bind Hr. injection Hr as <-. cbn [object_call value_call]. unfold o_cache, cache_update. cbn.
      pose proof (dict_get _ _ _ k U) as Gt. destruct (dget k ou) as [x|], (dget k su) as [y|]; try contradiction.
      + rewrite (none_agree _ _ _ Gt). destruct (is_none y); cbn; [|split; [apply grows_refl|reflexivity]].
        apply sim_ret. apply sees_make; auto. now apply dmapM_dset.
      + split; [apply grows_refl|reflexivity].
    - injection Hr as <-. cbn [object_call value_call]. unfold o_iterate, iterate_act.
      cbn [o_probabilities o_accumulators o_updates o_iterations o_epsilon o_defaults o_depression_constant o_error_mode probabilities accumulators updates iterations].
      eapply sim_bind; [apply sim_lift|]. intros [] [] h1 G1 _.
      eapply sim_bind; [apply sim_lift|]. intros [[x y] z] b h2 G2 <-.
      rewrite (tdict_keys _ _ _ A). pose proof (grows_trans _ _ _ G1 G2) as G12.
      eapply sim_bind; [apply (sim_loop (mkState se si sres sp sd sa su sdc sem)); [reflexivity| |]; eapply tdict_grows; eauto|].
      intros [a1 u1] [a2 u2] h3 G3 [T1 T2]. cbn [fst snd] in *.
      eapply sim_bind; [apply sim_lift|]. intros i b h4 G4 <-. unfold replace. cbn. apply sim_ret.
      apply sees_make; [|eapply tdict_grows; eauto..].
      eapply tdict_grows; [|exact D]. repeat (eapply grows_trans; [eassumption|]). apply grows_refl.
    - injection Hr as <-. cbn [object_call value_call]. unfold o_reset, reset_batches, has_cached_updates. cbn [o_updates updates].
      rewrite (pnone_any _ _ _ U).
      cbn [o_probabilities o_accumulators o_updates o_iterations o_residuals o_epsilon o_defaults o_depression_constant o_error_mode probabilities accumulators updates iterations residuals].
      eapply sim_bind; [apply sim_lift|]. intros [] [] h1 G1 _.
      eapply sim_bind; [apply sim_lift|]. intros x b h2 G2 <-.
      eapply sim_bind; [apply sim_lift|]. intros y b h3 G3 <-.
      eapply sim_bind; [apply sim_lift|]. intros z b h4 G4 <-.
      rewrite (tdict_keys _ _ _ A).
      assert (G : grows h h4) by (repeat (eapply grows_trans; [eassumption|]); apply grows_refl).
      eapply sim_bind; [eapply sim_reset_loop; [exact (sees_grows _ _ _ _ G S)|reflexivity]|].
      intros a a' h5 G5 T. unfold replace. cbn. apply sim_ret. pose proof (grows_trans _ _ _ G G5) as G'.
      apply sees_make; [eapply tdict_grows; eauto|exact T|eapply tdict_grows; eauto].
    - injection Hr as <-. cbn [object_call value_call]. unfold o_transform, transform. cbn [o_iterations o_residuals o_probabilities o_accumulators o_defaults iterations residuals probabilities accumulators defaults].
      assert (W : forall (X Y : Type) e (r : res X) (g : X -> Y), rewrap e (x <- r ;; Ok (g x)) = (x <- rewrap e r ;; Ok (g x))).
      { intros X Y e [x|e'] g; reflexivity. }
      match goal with |- sim _ _ (bind (rewrap _ ?r) _) _ =>
        assert (B : sim sees (o_transform limit (mkO se si sres sp od oa ou sdc sem) f)
          (rewrap RuntimeError (q <- r ;; (let '(its, ress, probs, accs, dfs, upds) := q in
             Ok (mkState se its ress probs dfs accs upds sdc sem)))) h) end.
      { apply sim_rewrap. cbn [o_iterations o_residuals o_probabilities o_accumulators o_defaults].
        assert (As : forall (X Y Z : Type) (r : res X) (g : X -> res Y) (k : Y -> res Z), bind (bind r g) k = bind r (fun x => bind (g x) k)).
        { intros X Y Z [x|e'] g k; reflexivity. }
        rewrite As. eapply sim_bind; [apply sim_lift|]. intros x b h1 G1 <-.
        rewrite As. eapply sim_bind; [apply sim_lift|]. intros y b h2 G2 <-.
        rewrite As. eapply sim_bind; [apply sim_lift|]. intros z b h3 G3 <-.
        assert (G : grows h h3) by (repeat (eapply grows_trans; [eassumption|]); apply grows_refl).
        rewrite As. eapply sim_bind; [apply sim_map; exact (tdict_grows _ _ _ _ G A)|]. intros a a' h4 G4 Ta.
        rewrite As. eapply sim_bind; [apply sim_map; exact (tdict_grows _ _ _ _ (grows_trans _ _ _ G G4) D)|]. intros d d' h5 G5 Td.
        rewrite As. eapply sim_bind; [apply sim_map; exact (tdict_grows _ _ _ _ (grows_trans _ _ _ (grows_trans _ _ _ G G4) G5) D)|]. intros u u' h6 G6 Tu.
        apply sim_ret. apply sees_make; [eapply tdict_grows; eauto| |exact Tu].
        eapply tdict_grows; [exact (grows_trans _ _ _ G5 G6)|exact Ta]. }
      unfold sim in *. destruct B as [B1 B2]. split; [exact B1|]. revert B2. unfold o_transform.
      cbn [o_iterations o_residuals o_probabilities o_accumulators o_defaults].
      match goal with |- match fst (?m h) with _ => _ end -> _ => set (mm := m) end.
      match goal with |- context [rewrap RuntimeError (bind ?r _)] => destruct r as [[[[[[x1 x2] x3] x4] x5] x6]|e] end; cbn; auto.
    - inv_bind Hr. injection Hr as <-. cbn [object_call value_call]. unfold o_set, sees in *.
      unfold sim, rbind. rewrite S. unfold rfetch, rlift, rret. rewrite E. unfold set_slot.
      destruct (edit_controller _ mode) as [e|e] eqn:Ee; cbn; [|split; [apply grows_refl|reflexivity]].
      assert (Es : ed_state e = mkState se si sres sp sd sa su sdc sem).
      { unfold edit_controller in Ee. inv_bind Ee. injection Ee as <-. reflexivity. }
      destruct w; unfold set_accumulator, set_defaults, set_updates; rewrite Es;
        (destruct (execute_checks _ _) as [u|u]; cbn; [|split; [apply grows_refl|reflexivity]]);
        (split; [apply grows_refl|]); apply sees_make; auto; apply dmapM_dset; auto.
  Qed.
End RefsFacts.
