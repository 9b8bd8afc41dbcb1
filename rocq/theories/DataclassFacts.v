(** * Facts about dataclasses in pytrees *)
From Coq Require Import Permutation Sorting.Sorted.
From Verif Require Import Base PyTree Tensor Num Utils States Controller Wf History StateSpec Dataclass DataclassSpec.
From Verif Require Import BaseFacts PyTreeFacts TensorFacts ControllerFacts IterateFacts HistoryFacts StateFacts.
Open Scope string_scope. Open Scope list_scope. Open Scope nat_scope.

Definition on_snd {V W} (f : V -> W) (kv : string * V) : string * W := (fst kv, f (snd kv)).
Lemma insert_map {V W} (f : V -> W) kv (d : dict V) : insert_item (on_snd f kv) (map (on_snd f) d) = map (on_snd f) (insert_item kv d).
Proof. induction d as [|kv' d IH]; cbn; [reflexivity|]. destruct (String.ltb _ _); cbn; [reflexivity|]. now rewrite IH. Qed.
Lemma sort_map {V W} (f : V -> W) (d : dict V) : sort_items (map (on_snd f) d) = map (on_snd f) (sort_items d).
Proof.
  induction d as [|kv d IH]; [reflexivity|]. change (insert_item (on_snd f kv) (sort_items (map (on_snd f) d)) = map (on_snd f) (insert_item kv (sort_items d))).
  rewrite IH. apply insert_map.
Qed.
Lemma combine_map {V W} (f : V -> W) ks vs : combine ks (map f vs) = map (on_snd f) (combine ks vs).
Proof. revert vs. induction ks as [|k ks IH]; intros [|v vs]; cbn; [reflexivity..|]. now rewrite IH. Qed.
Lemma dkeys_map {V W} (f : V -> W) (d : dict V) : dkeys (map (on_snd f) d) = dkeys d.
Proof. unfold dkeys. rewrite map_map. reflexivity. Qed.
Lemma dvals_map {V W} (f : V -> W) (d : dict V) : dvals (map (on_snd f) d) = map f (dvals d).
Proof. unfold dvals. rewrite !map_map. reflexivity. Qed.
Lemma dget_map {V W} (f : V -> W) k (d : dict V) : dget k (map (on_snd f) d) = option_map f (dget k d).
Proof. induction d as [|[k' v] d IH]; cbn; [reflexivity|]. destruct (String.eqb k k'); [reflexivity|exact IH]. Qed.
Lemma dkeys_combine {V} ks (vs : list V) : length vs = length ks -> dkeys (combine ks vs) = ks.
Proof. revert vs. induction ks as [|k ks IH]; intros [|v vs] H; cbn in *; try discriminate; [reflexivity|]. f_equal. apply IH. congruence. Qed.

Lemma option_map_some {A B} (f : A -> B) (o : option A) : (exists b, option_map f o = Some b) <-> (exists a, o = Some a).
Proof. destruct o; cbn; split; intros [x H]; eauto; discriminate. Qed.

(** ** [asdict] *)
Lemma asdict_tmap {A B} (f : A -> B) dc (t : tree A) : asdict dc (tmap f t) = tmap f (asdict dc t).
Proof.
  induction t as [a|n cs IH] using tree_ind'; [reflexivity|]. cbn [tmap asdict].
  assert (E : map (asdict dc) (map (tmap f) cs) = map (tmap f) (map (asdict dc) cs)).
  { rewrite !map_map. apply map_ext_in. intros c Hc. rewrite Forall_forall in IH. now apply IH. }
  rewrite E. destruct n; try reflexivity. destruct (dc cls) as [fields|]; [|reflexivity].
  rewrite combine_map, sort_map, dkeys_map, dvals_map. reflexivity.
Qed.
Lemma structure_asdict {A} dc (t : tree A) : structure (asdict dc t) = asdict dc (structure t).
Proof. unfold structure. symmetry. apply asdict_tmap. Qed.
Lemma in_sorted_combine {V} ks (vs : list V) v : In v (dvals (sort_items (combine ks vs))) -> In v vs.
Proof.
  unfold dvals. intros H. apply in_map_iff in H as ([k v'] & <- & H). cbn.
  eapply Permutation_in in H; [|apply sort_items_perm]. now apply in_combine_r in H.
Qed.
Lemma leaves_asdict {A} dc (t : tree A) l : In l (leaves (asdict dc t)) -> In l (leaves t).
Proof.
  induction t as [a|n cs IH] using tree_ind'; [auto|]. rewrite Forall_forall in IH. cbn [asdict].
  assert (G : forall ts, (forall t, In t ts -> In t (map (asdict dc) cs)) -> In l (flat_map leaves ts) -> In l (leaves (Node n cs))).
  { intros ts Hts H. apply in_flat_map in H as (t & Ht & H). apply Hts, in_map_iff in Ht as (c & <- & Hc).
    cbn [leaves]. apply in_flat_map. exists c. auto. }
  destruct n; try (apply G; auto). destruct (dc cls) as [fields|]; [|apply G; auto].
  cbn [leaves]. apply G. intros t. apply in_sorted_combine.
Qed.
Lemma asdict_free {A} dc (t : tree A) : free_of (fun c => dc c <> None) t -> asdict dc t = t.
Proof.
  induction t as [a|n cs IH] using tree_ind'; intros F; [reflexivity|]. inversion F as [|n' cs' Hn Hc]; subst. cbn [asdict].
  assert (E : map (asdict dc) cs = cs).
  { rewrite <- (map_id cs) at 2. apply map_ext_in. intros c H. rewrite Forall_forall in IH, Hc. apply IH; auto. }
  rewrite E. destruct n; try reflexivity. destruct (dc cls) eqn:D; [|reflexivity]. exfalso. apply (Hn cls eq_refl). congruence.
Qed.
Lemma asdict_result {A} dc (t : tree A) : free_of (fun c => dc c <> None) (asdict dc t).
Proof.
  induction t as [a|n cs IH] using tree_ind'; [constructor|]. cbn [asdict].
  assert (F : Forall (free_of (fun c => dc c <> None)) (map (asdict dc) cs)) by (apply Forall_map; exact IH).
  destruct n as [| | |ks|cls]; try (constructor; [discriminate|exact F]). destruct (dc cls) as [fields|] eqn:D.
  - constructor; [discriminate|]. rewrite Forall_forall in F |- *. intros t Ht. apply F. eapply in_sorted_combine; exact Ht.
  - constructor; [|exact F]. intros c [= <-]. congruence.
Qed.
Lemma free_structure {A} P (t : tree A) : free_of P (structure t) <-> free_of P t.
Proof.
  induction t as [a|n cs IH] using tree_ind'; [split; constructor|]. rewrite structure_Node. rewrite Forall_forall in IH.
  split; intros F; inversion F as [|n' cs' Hn Hc]; subst; constructor; auto; rewrite Forall_forall in *.
  - intros c H. apply IH; [exact H|]. apply Hc. now apply in_map.
  - intros c H. apply in_map_iff in H as (c0 & <- & H). apply IH; auto.
Qed.
Lemma is_none_asdict {A} dc (t : tree A) : is_none (asdict dc t) = is_none t.
Proof. destruct t as [a|n cs]; [reflexivity|]. destruct n; try reflexivity. cbn. now destruct (dc cls). Qed.
Lemma asdict_same_structure {A} dc (t : tree A) : structure (asdict dc t) = structure t <-> free_of (fun c => dc c <> None) t.
Proof.
  split; intros H; [|now rewrite asdict_free]. apply free_structure. rewrite <- H. apply free_structure, asdict_result.
Qed.

Section DataclassFacts.
  Context {N : numsys}.
  Notation st := (state N).
  Notation tr := (tree (array N)).

  Lemma table_map {L} dc (d : dict (tree L)) : asdict_table dc d = map (on_snd (asdict dc)) d.
  Proof. reflexivity. Qed.
  Lemma boundary_char dc (s : st) : across_boundary dc s = Ok (canonical (asdict_state dc s)).
  Proof.
    unfold across_boundary, flatten_with_asdict, save. assert (R := flatten_round_trip (asdict_state dc s)).
    destruct (tree_flatten_state _) as [flat td]. cbn [fst snd] in R. unfold unflatten_controller. rewrite R. reflexivity.
  Qed.
  Lemma asdict_proper dc (s : st) : proper s -> proper (asdict_state dc s).
  Proof. intros (A & B & C). unfold proper. cbn [asdict_state defaults accumulators updates]. rewrite !table_map, !dkeys_map. auto. Qed.
  (** what the boundary does to an entry *)
  Lemma boundary_entries dc (s s' : st) : proper s -> across_boundary dc s = Ok s' -> forall k,
    dget k (accumulators s') = option_map (asdict dc) (dget k (accumulators s)) /\
    dget k (defaults s') = option_map (asdict dc) (dget k (defaults s)) /\
    dget k (updates s') = option_map (asdict dc) (dget k (updates s)).
  Proof.
    intros P. rewrite boundary_char. intros [= <-] k. destruct (asdict_proper dc s P) as (A & B & C).
    cbn [canonical accumulators defaults updates]. rewrite !dget_sort by assumption. cbn [asdict_state accumulators defaults updates].
    rewrite !table_map, !dget_map. auto.
  Qed.
  Lemma alike_asdict dc (t d : tr) : alike t d -> alike (asdict dc t) (asdict dc d).
  Proof.
    intros [S L]. assert (E : tmap sig t = tmap sig d) by (apply tree_ext; [now rewrite !structure_tmap|now rewrite !leaves_tmap]).
    assert (E' : tmap sig (asdict dc t) = tmap sig (asdict dc d)) by (rewrite <- !asdict_tmap; now rewrite E).
    split; [rewrite <- (structure_tmap sig), E'; apply structure_tmap|rewrite <- !leaves_tmap; now rewrite E'].
  Qed.
  Lemma boundary_wf dc (s s' : st) : wf s -> wf_pending s -> across_boundary dc s = Ok s' -> wf s' /\ wf_pending s'.
  Proof.
    intros W Wp H. assert (P : proper s) by (split; [apply W|split; apply W]). assert (E := boundary_entries dc s s' P H).
    rewrite boundary_char in H. injection H as <-. set (s' := canonical (asdict_state dc s)) in *. destruct (canonical_proper _ (asdict_proper dc s P)) as (NA & NB & NC).
    assert (K : forall k, (In k (dkeys (accumulators s')) <-> In k (dkeys (accumulators s))) /\ (In k (dkeys (defaults s')) <-> In k (dkeys (defaults s))) /\
                          (In k (dkeys (updates s')) <-> In k (dkeys (updates s)))).
    { intros k. destruct (E k) as (Ea & Ed & Eu). rewrite !dget_keys, Ea, Ed, Eu. rewrite !option_map_some. tauto. }
    split.
    - split; try exact (wf_p _ W); try exact (wf_r _ W); try exact (wf_i _ W); try apply W; auto.
      + intros k. destruct (K k) as (Ka & Kd & Ku). rewrite Ka, Kd. apply W.
      + intros k. destruct (K k) as (Ka & Kd & Ku). rewrite Ka, Ku. apply W.
      + intros k t Ht. destruct (E k) as (Ea & _). rewrite Ea in Ht. destruct (dget k (accumulators s)) as [t0|] eqn:G; cbn in Ht; [|discriminate].
        injection Ht as <-. assert (F := wf_acc _ W _ _ G). rewrite Forall_forall in *. intros a Ha. apply F. now apply leaves_asdict in Ha.
      + intros k t d Ht Hd. destruct (E k) as (Ea & Ed & _). rewrite Ea in Ht. rewrite Ed in Hd.
        destruct (dget k (accumulators s)) as [t0|] eqn:G; cbn in Ht; [|discriminate].
        destruct (dget k (defaults s)) as [d0|] eqn:G'; cbn in Hd; [|discriminate]. injection Ht as <-. injection Hd as <-.
        destruct (wf_def _ W _ _ _ G G') as [A F]. split; [now apply alike_asdict|]. rewrite Forall_forall in *. intros a Ha. apply F. now apply leaves_asdict in Ha.
    - intros k u Hu. destruct (E k) as (_ & _ & Eu). rewrite Eu in Hu. destruct (dget k (updates s)) as [u0|] eqn:G; cbn in Hu; [|discriminate].
      injection Hu as <-. specialize (Wp _ _ G). rewrite Forall_forall in *. intros a Ha. apply Wp. now apply leaves_asdict in Ha.
  Qed.
  Lemma same_state_free dc (s s' : st) : proper s -> across_boundary dc s = Ok s' ->
    (same_state s s' <-> forall k t, dget k (accumulators s) = Some t \/ dget k (defaults s) = Some t \/ dget k (updates s) = Some t ->
                         free_of (fun c => dc c <> None) t).
  Proof.
    intros P H. assert (E := boundary_entries dc s s' P H). split.
    - intros S k t Ht. destruct (E k) as (Ea & Ed & Eu). rewrite <- (ss_acc _ _ S) in Ea. rewrite <- (ss_def _ _ S) in Ed. rewrite <- (ss_upd _ _ S) in Eu.
      apply (asdict_same_structure dc). destruct Ht as [Ht|[Ht|Ht]]; rewrite Ht in *; cbn in *; congruence.
    - intros F.
      assert (G : forall k (o : option tr), (forall t, o = Some t -> dget k (accumulators s) = Some t \/ dget k (defaults s) = Some t \/ dget k (updates s) = Some t) ->
                  o = option_map (asdict dc) o).
      { intros k [t|] Ho; [|reflexivity]. cbn. f_equal. symmetry. apply asdict_free. apply (F k). now apply Ho. }
      rewrite boundary_char in H. injection H as <-. split; try reflexivity; intros k; destruct (E k) as (Ea & Ed & Eu).
      + rewrite Ed. apply (G k). auto.
      + rewrite Ea. apply (G k). auto.
      + rewrite Eu. apply (G k). auto.
  Qed.
End DataclassFacts.

(** ** One instance *)
Lemma asdict_instance {L} dc cls fields (vs : list L) : dc cls = Some fields ->
  asdict dc (instance cls vs) = let d := sort_items (combine fields vs) in dictionary (dkeys d) (dvals d).
Proof.
  intros D. unfold instance, dictionary. cbn [asdict]. rewrite D, map_map. cbn [asdict]. rewrite combine_map, sort_map, dkeys_map, dvals_map. reflexivity.
Qed.
Lemma leaves_map_Leaf {L} n (vs : list L) : leaves (Node n (map Leaf vs)) = vs.
Proof. cbn [leaves]. induction vs as [|v vs IH]; cbn; [reflexivity|]. now rewrite IH. Qed.
Lemma structure_leaves {L} n (vs : list L) (t : tree L) : structure t = structure (Node n (map Leaf vs)) -> t = Node n (map Leaf (leaves t)).
Proof.
  intros H. apply tree_ext; [|now rewrite leaves_map_Leaf]. rewrite H, !structure_Node. f_equal. rewrite !map_map. cbn.
  assert (E : length vs = length (leaves t)).
  { apply structure_eq_length in H. now rewrite leaves_map_Leaf in H. }
  clear H. generalize dependent (leaves t). intros l E. revert vs E. induction l as [|x l IH]; intros [|v vs] E; cbn in *; try discriminate; [reflexivity|]. f_equal. apply IH. congruence.
Qed.
(** position [j] of the sorted items is field [f], which is declared at position [i] *)
Lemma sorted_position {V} ks (vs : list V) j i f v : length vs = length ks -> NoDup ks ->
  nth_error (dkeys (sort_items (combine ks vs))) j = Some f -> nth_error ks i = Some f -> nth_error vs i = Some v ->
  nth_error (dvals (sort_items (combine ks vs))) j = Some v.
Proof.
  intros L ND Hj Hi Hv. unfold dkeys, dvals in *. rewrite nth_error_map in Hj |- *.
  destruct (nth_error (sort_items _) j) as [[f' v']|] eqn:E; cbn in *; [|discriminate]. injection Hj as ->.
  apply nth_error_In in E. eapply Permutation_in in E; [|apply sort_items_perm]. f_equal.
  assert (G : nth_error (combine ks vs) i = Some (f, v)).
  { clear -Hi Hv. revert i vs Hi Hv. induction ks as [|k ks IH]; intros [|i] [|w vs] Hi Hv; cbn in *; try discriminate; [congruence|]. now apply IH. }
  apply nth_error_In in G. assert (K := dkeys_combine ks vs L).
  assert (G1 := dget_nodup f v (combine ks vs)). assert (G2 := dget_nodup f v' (combine ks vs)). rewrite K in G1, G2.
  specialize (G1 ND G). specialize (G2 ND E). congruence.
Qed.
