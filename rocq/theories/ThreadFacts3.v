(** * Every call in progress is a call on its own, seen through a renaming of addresses *)
From Verif Require Import Base PyTree Tensor Num Utils States Controller Builder Viewer Editor
  BaseFacts Heap HeapSpec HeapFacts HeapFacts2 HeapFacts3 HeapFacts4 ThreadSpec ThreadFacts ThreadFacts2.

Section Invariant.
  Context {N : numsys}.
  Notation heap := (heap N).

  (** Who may write to an address: 0 is nobody any more, any other number a call. *)
  Notation owners := (loc -> nat).

  (** A call with owner number [id] and the rest [q], which is to give [r]: the same call with the rest
      [p], on a heap [hs] of its own. *)
  Record tracked (h : heap) (G : owners) (id : nat) (r : res (pyval N)) (q : M N loc)
    (n : nat) (w : world) (hs : heap) (p : M N loc) : Prop := {
    tr_n : n <= length w;
    tr_len : length w = length hs;
    tr_prog : rprog n rloc w p q;
    tr_link : forall a b, rloc w a b ->
      exists o o', nth_error hs a = Some o /\ nth_error h b = Some o' /\ robj w o o';
    tr_old : forall a b, rloc w a b -> a < n -> G b = 0;
    tr_own : forall a b, rloc w a b -> n <= a -> G b = id;
    tr_inj : forall a a' b, rloc w a b -> rloc w a' b -> n <= a -> n <= a' -> a = a';
    tr_all : forall b, b < length h -> G b = id -> exists a, rloc w a b;
    tr_result : agrees (exec p hs) r
  }.

  Lemma rloc_fun w a b b' : rloc w a b -> rloc w a b' -> b = b'.
  Proof. unfold rloc. congruence. Qed.
  Lemma tr_bound h G id r q n w hs p a b : tracked h G id r q n w hs p -> rloc w a b -> b < length h.
  Proof.
    intros T H. destruct (tr_link _ _ _ _ _ _ _ _ _ T a b H) as (o & o' & _ & E & _). apply nth_error_Some. congruence.
  Qed.
  Lemma tr_whose h G id r q n w hs p a b : tracked h G id r q n w hs p -> rloc w a b -> G b = 0 \/ G b = id.
  Proof.
    intros T H. destruct (Nat.lt_ge_cases a n).
    - left. eapply tr_old; eauto.
    - right. eapply tr_own; eauto.
  Qed.

  (** What others do does not matter. *)
  Lemma tracked_frame h h' G G' id r q n w hs p :
    tracked h G id r q n w hs p ->
    (forall b, b < length h -> G b = 0 \/ G b = id -> nth_error h' b = nth_error h b /\ G' b = G b) ->
    (forall b, b < length h' -> G' b = id -> b < length h /\ G b = id) ->
    tracked h' G' id r q n w hs p.
  Proof.
    intros T Hf Ho. pose proof T as [T1 T2 T3 T4 T5 T6 T7 T8 T9]. constructor; auto.
    - intros a b H. destruct (T4 a b H) as (o & o' & E1 & E2 & E3). exists o, o'. split; [exact E1|]. split; [|exact E3].
      now rewrite (proj1 (Hf b (tr_bound _ _ _ _ _ _ _ _ _ _ _ T H) (tr_whose _ _ _ _ _ _ _ _ _ _ _ T H))).
    - intros a b H L. rewrite (proj2 (Hf b (tr_bound _ _ _ _ _ _ _ _ _ _ _ T H) (tr_whose _ _ _ _ _ _ _ _ _ _ _ T H))). eauto.
    - intros a b H L. rewrite (proj2 (Hf b (tr_bound _ _ _ _ _ _ _ _ _ _ _ T H) (tr_whose _ _ _ _ _ _ _ _ _ _ _ T H))). eauto.
    - intros b L E. destruct (Ho b L E). eauto.
  Qed.

  Definition give (G : owners) (l : loc) (id : nat) : owners := fun b => if Nat.eqb b l then id else G b.
  Lemma rloc_snoc w x a b : rloc (w ++ [x]) a b -> rloc w a b \/ a = length w /\ x = Some b.
  Proof.
    unfold rloc. intros H. destruct (Nat.lt_ge_cases a (length w)) as [L|L].
    - left. now rewrite nth_error_app1 in H.
    - right. rewrite nth_error_app2 in H by exact L. destruct (a - length w) as [|m] eqn:E; cbn in H; [|now destruct m].
      split; [lia|congruence].
  Qed.

  (** One access. *)
  Lemma tracked_access h G id r q n w hs p q' h' :
    tracked h G id r q n w hs p -> access q h q' h' -> id <> 0 ->
    exists w' hs' p' G',
      tracked h' G' id r q' n w' hs' p' /\
      length h <= length h' /\
      (forall b, b < length h -> G' b = G b) /\
      (forall b, b < length h -> G b <> id -> nth_error h' b = nth_error h b) /\
      (forall b, length h <= b -> b < length h' -> G' b = id) /\
      (forall b, G' b = G b \/ G' b = id).
  Proof.
    intros T A Hid. pose proof T as [T1 T2 T3 T4 T5 T6 T7 T8 T9].
    destruct A as [o' k' h|l' k' h|l' o' k' h].
    - inversion T3 as [| |w0 o o'' k k'' Ho Hk| |]; subst; clear T3.
      exists (w ++ [Some (length h)]), (hs ++ [o]), (k (length w)), (give G (length h) id).
      assert (Q : forall b, b < length h -> give G (length h) id b = G b).
      { intros b L. unfold give. destruct (Nat.eqb_spec b (length h)); [lia|reflexivity]. }
      assert (S : give G (length h) id (length h) = id) by (unfold give; now rewrite Nat.eqb_refl).
      assert (B : forall a b, rloc w a b -> b < length h) by (intros a b; apply (tr_bound _ _ _ _ _ _ _ _ _ _ _ T)).
      assert (L0 : forall a b, rloc w a b -> a < length w).
      { intros a b H. apply nth_error_Some. unfold rloc in H. congruence. }
      split; [constructor|split; [|split; [|split; [|split]]]].
      + rewrite app_length. lia.
      + rewrite !app_length. cbn. lia.
      + apply Hk.
      + intros a b H. apply rloc_snoc in H as [H|[-> [= <-]]].
        * destruct (T4 a b H) as (x & x' & E1 & E2 & E3). exists x, x'. split; [|split].
          -- rewrite nth_error_app1; [exact E1|]. rewrite <- T2. eauto.
          -- rewrite nth_error_app1; [exact E2|]. eauto.
          -- eapply robj_ext; [apply ext_one|exact E3].
        * exists o, o'. rewrite T2. rewrite !nth_error_app2, !Nat.sub_diag by lia. split; [reflexivity|]. split; [reflexivity|].
          eapply robj_ext; [apply ext_one|exact Ho].
      + intros a b H L. apply rloc_snoc in H as [H|[-> _]]; [|lia]. rewrite Q by eauto. eauto.
      + intros a b H L. apply rloc_snoc in H as [H|[-> [= <-]]]; [|exact S]. rewrite Q by eauto. eauto.
      + intros a a' b H H' L L'. apply rloc_snoc in H as [H|[-> H]]; apply rloc_snoc in H' as [H'|[-> H']].
        * eauto.
        * assert (b = length h) by congruence. apply B in H. lia.
        * assert (b = length h) by congruence. apply B in H'. lia.
        * reflexivity.
      + intros b L E. rewrite app_length in L. cbn in L. destruct (Nat.eq_dec b (length h)) as [-> | Hb].
        * exists (length w). unfold rloc. now rewrite nth_error_app2, Nat.sub_diag by lia.
        * rewrite Q in E by lia. destruct (T8 b ltac:(lia) E) as [a Ha]. exists a. eapply rloc_ext; [apply ext_one|exact Ha].
      + cbn [exec] in T9. now rewrite T2.
      + rewrite app_length. lia.
      + exact Q.
      + intros b L _. now rewrite nth_error_app1.
      + intros b L1 L2. rewrite app_length in L2. cbn in L2. replace b with (length h) by lia. exact S.
      + intros b. unfold give. destruct (Nat.eqb b (length h)); auto.
    - inversion T3 as [| | |w0 l l'' k k'' Hl Hk|]; subst; clear T3.
      destruct (T4 _ _ Hl) as (o & o' & E1 & E2 & E3).
      exists w, hs, (k (Some o)), G.
      split; [constructor; auto|split; [lia|split; [auto|split; [auto|split; [lia|auto]]]]].
      + rewrite E2. now apply Hk.
      + cbn [exec] in T9. now rewrite E1 in T9.
    - inversion T3 as [| | | |w0 l l'' o o'' k k'' Hn Hl Ho Hk]; subst; clear T3.
      exists w, (put hs l o), k, G.
      split; [constructor; auto|split; [|split; [auto|split; [|split]]]].
      + now rewrite put_length.
      + intros a b H. destruct (T4 a b H) as (x & x' & E1 & E2 & E3).
        destruct (Nat.eq_dec b l') as [-> | Hb].
        * assert (a = l) as ->.
          { destruct (Nat.lt_ge_cases a n) as [L|L].
            - exfalso. pose proof (T5 _ _ H L). pose proof (T6 _ _ Hl Hn). congruence.
            - eauto. }
          exists o, o'. split; [eapply put_same; exact E1|]. split; [eapply put_same; exact E2|exact Ho].
        * exists x, x'. assert (a <> l) by (intros ->; apply Hb; eapply rloc_fun; eassumption).
          rewrite !put_other by auto. auto.
      + intros b L. rewrite put_length in L. eauto.
      + rewrite put_length. lia.
      + intros b L Hb. apply put_other. intros <-. apply Hb. eauto.
      + intros b L1 L2. rewrite put_length in L2. lia.
      + auto.
  Qed.

  (** ** Views through the world *)
  Lemma linked_view_dict w (hs h : heap) a b d :
    (forall a b, rloc w a b -> exists o o', nth_error hs a = Some o /\ nth_error h b = Some o' /\ robj w o o') ->
    rloc w a b -> view_dict hs a = Some d -> view_dict h b = Some d.
  Proof.
    intros L H. destruct (L a b H) as (o & o' & E1 & E2 & E3). unfold view_dict. rewrite E1, E2.
    destruct o, o'; cbn in E3; try contradiction; try discriminate. now subst.
  Qed.
  Lemma linked_view_state w (hs h : heap) a b s :
    (forall a b, rloc w a b -> exists o o', nth_error hs a = Some o /\ nth_error h b = Some o' /\ robj w o o') ->
    rloc w a b -> view_state hs a = Some s -> view_state h b = Some s.
  Proof.
    intros L H. destruct (L a b H) as (o & o' & E1 & E2 & E3). unfold view_state. rewrite E1, E2.
    destruct o as [|x|], o' as [|y|]; cbn in E3; try contradiction; try discriminate.
    destruct E3 as (F1 & F2 & F3 & F4 & F5 & F6 & F7 & F8 & F9).
    destruct (view_dict hs (h_defaults x)) as [d1|] eqn:D1; [|discriminate].
    destruct (view_dict hs (h_accumulators x)) as [d2|] eqn:D2; [|discriminate].
    destruct (view_dict hs (h_updates x)) as [d3|] eqn:D3; [|discriminate].
    rewrite (linked_view_dict w hs h _ _ _ L F5 D1), (linked_view_dict w hs h _ _ _ L F6 D2),
      (linked_view_dict w hs h _ _ _ L F7 D3).
    now rewrite F1, F2, F3, F4, F8, F9.
  Qed.
  Lemma linked_view w (hs h : heap) a b v :
    (forall a b, rloc w a b -> exists o o', nth_error hs a = Some o /\ nth_error h b = Some o' /\ robj w o o') ->
    rloc w a b -> view hs a = Some v -> view h b = Some v.
  Proof.
    intros L H. pose proof (linked_view_state w hs h a b) as LS. destruct (L a b H) as (o & o' & E1 & E2 & E3).
    unfold view. rewrite E1, E2.
    destruct o as [|x|k at_], o' as [|y|k' at']; cbn in E3; try contradiction; try discriminate.
    - destruct (view_state hs a) as [s|] eqn:S; [|discriminate]. now rewrite (LS s L H eq_refl).
    - destruct E3 as [<- E3].
      pose proof (rattrs_dget _ _ _ "state"%string E3) as G1. pose proof (rattrs_dget _ _ _ "error_mode"%string E3) as G2.
      destruct (dget "state" at_) as [[| |ls]|]; try discriminate.
      destruct (dget "state" at') as [[| |ls']|]; cbn in G1; try contradiction.
      destruct (view_state hs ls) as [s|] eqn:S; [|discriminate].
      rewrite (linked_view_state w hs h _ _ _ L G1 S).
      destruct k; auto. destruct (dget "error_mode" at_) as [[|m|]|]; try discriminate.
      destruct (dget "error_mode" at') as [[|m'|]|]; cbn in G2; try contradiction. now subst.
  Qed.

  (** ** References of an object *)
  Definition refs_in (P : loc -> Prop) (o : obj N) : Prop :=
    match o with
    | ODict _ => True
    | OState x => P (h_defaults x) /\ P (h_accumulators x) /\ P (h_updates x)
    | OInst _ attrs => Forall (fun kv => match snd kv with VRef l => P l | _ => True end) attrs
    end.
  Lemma refs_in_impl (P Q : loc -> Prop) o : (forall l, P l -> Q l) -> refs_in P o -> refs_in Q o.
  Proof.
    intros H. destruct o as [d|x|k at_]; cbn; [auto|intuition auto|].
    intros F. eapply Forall_impl; [|exact F]. intros [key [| |l]]; cbn; auto.
  Qed.
  Lemma robj_same w o : refs_in (fun l => rloc w l l) o -> robj w o o.
  Proof.
    destruct o as [d|x|k at_]; cbn; [reflexivity|unfold rstate; intuition auto|].
    intros F. split; [reflexivity|]. induction F as [|[key v] at_ H F IH]; constructor; [|exact IH].
    split; [reflexivity|]. cbn in *. destruct v; cbn; auto.
  Qed.
  Lemma robj_refs w o o' : robj w o o' -> refs_in (fun b => exists a, rloc w a b) o'.
  Proof.
    destruct o as [d|x|k at_], o' as [d'|x'|k' at']; cbn; try contradiction; auto.
    - unfold rstate. intros (_ & _ & _ & _ & H1 & H2 & H3 & _). repeat split; eauto.
    - intros [_ H]. induction H as [|[key u] [key' v] at_ at' [Hk Hv] H IH]; constructor; [|exact IH].
      cbn in *. destruct v; auto. destruct u; cbn in Hv; try contradiction. eauto.
  Qed.

  (** ** Starting a call *)
  Definition start_world (h : heap) (G : owners) : world :=
    map (fun i => if Nat.eqb (G i) 0 then Some i else None) (seq 0 (length h)).
  Lemma start_rloc h G a b : rloc (start_world h G) a b <-> a = b /\ a < length h /\ G a = 0.
  Proof.
    unfold rloc, start_world, loc in *. rewrite nth_error_map.
    destruct (Nat.lt_ge_cases a (length h)) as [L|L].
    - rewrite (nth_error_nth' (seq 0 (length h)) (n := a) 0) by (now rewrite seq_length). rewrite seq_nth by exact L. cbn.
      destruct (Nat.eqb_spec (G a) 0) as [E|E]; split; intros H.
      + injection H as <-. auto.
      + now destruct H as [-> _].
      + discriminate.
      + destruct H as (_ & _ & H). contradiction.
    - assert (nth_error (seq 0 (length h)) a = None) as -> by (apply nth_error_None; now rewrite seq_length).
      split; [discriminate|]. intros (_ & H & _). lia.
  Qed.
  Definition settled (h : heap) (G : owners) : Prop :=
    forall l o, nth_error h l = Some o -> G l = 0 -> refs_in (fun l' => l' < length h /\ G l' = 0) o.
  Lemma tracked_start h G id r q :
    settled h G -> (forall b, b < length h -> G b <> id) ->
    rprog (length h) rloc (start_world h G) q q -> agrees (exec q h) r ->
    tracked h G id r q (length h) (start_world h G) h q.
  Proof.
    intros S F P A. assert (E : length (start_world h G) = length h) by (unfold start_world; now rewrite map_length, seq_length).
    constructor; auto.
    - lia.
    - intros a b H. apply start_rloc in H as (<- & L & Z). destruct (nth_error h a) as [o|] eqn:Eo; [|apply nth_error_None in Eo; lia].
      exists o, o. split; [reflexivity|]. split; [reflexivity|]. apply robj_same.
      eapply refs_in_impl; [|exact (S a o Eo Z)]. intros l [H1 H2]. apply start_rloc. auto.
    - intros a b H _. now apply start_rloc in H as (<- & _ & Z).
    - intros a b H L. apply start_rloc in H. lia.
    - intros a a' b H _ L _. apply start_rloc in H. lia.
    - intros b L Hb. now destruct (F b L).
  Qed.

  (** ** The invariant *)
  Definition fits (h : heap) (G : owners) (vs : list (pyval N)) (id : nat) (cq : hcall N * M N loc) : Prop :=
    exists r n w hs p, tracked h G id r (snd cq) n w hs p /\ forall t, pure_do (vs ++ t) (fst cq) = r.
  Definition invariant (vs0 : list (pyval N)) (c : config N) : Prop :=
    exists G ids fresh vs,
      NoDup ids /\ Forall (fun id => 0 < id < fresh) ids /\ (forall l, G l < fresh) /\
      settled (c_heap c) G /\
      shows (c_heap c) (c_pool c) vs /\ Forall (fun l => l < length (c_heap c) /\ G l = 0) (c_pool c) /\
      pure_run vs0 (map fst (c_ended c)) = (map snd (c_ended c), vs) /\
      Forall2 (fits (c_heap c) G vs) ids (c_running c).

  Lemma pure_run_snoc (vs : list (pyval N)) cs c :
    pure_run vs (cs ++ [c]) =
      let '(es, vs1) := pure_run vs cs in
      let r := pure_do vs1 c in
      (es ++ [outcome r], match r with Ok v => vs1 ++ [v] | Err _ => vs1 end).
  Proof.
    revert vs. induction cs as [|c0 cs IH]; intros vs; cbn [app pure_run].
    - reflexivity.
    - rewrite IH. destruct (pure_run _ cs) as [es vs1]. reflexivity.
  Qed.

  Lemma view_bound (h : heap) l v : view h l = Some v -> l < length h.
  Proof. unfold view. intros H. apply nth_error_Some. destruct (nth_error h l); congruence. Qed.

  Lemma invariant_begins c vs : begins c vs -> invariant vs c.
  Proof.
    intros (D & S & R & E). exists (fun _ => 0), [], 1, vs. destruct c as [h p rs es]. cbn in *. subst.
    split; [constructor|]. split; [constructor|]. split; [lia|]. split; [|split; [exact S|split; [|split; [reflexivity|constructor]]]].
    - intros l o H _. pose proof (proj1 (Forall_forall _ _) D o (nth_error_In _ _ H)) as X.
      destruct o as [d|x|k at_]; cbn in *; [auto|intuition auto|].
      eapply Forall_impl; [|exact X]. intros [key [| |l']]; cbn; auto.
    - clear -S. unfold shows in S. induction S; constructor; eauto using view_bound.
  Qed.

  (** Contents of objects nobody may write to any more. *)
  Lemma frozen_view_dict (h h' : heap) (G : owners) l d :
    (forall b, b < length h -> G b = 0 -> nth_error h' b = nth_error h b) ->
    l < length h -> G l = 0 -> view_dict h l = Some d -> view_dict h' l = Some d.
  Proof. intros F L Z. unfold view_dict. now rewrite F. Qed.
  Lemma frozen_view_state (h h' : heap) (G : owners) l s :
    settled h G -> (forall b, b < length h -> G b = 0 -> nth_error h' b = nth_error h b) ->
    l < length h -> G l = 0 -> view_state h l = Some s -> view_state h' l = Some s.
  Proof.
    intros S F L Z. unfold view_state. rewrite (F l L Z). destruct (nth_error h l) as [[|x|]|] eqn:E; auto.
    destruct (S l _ E Z) as ((L1 & Z1) & (L2 & Z2) & (L3 & Z3)).
    unfold view_dict. now rewrite !F.
  Qed.
  Lemma frozen_view (h h' : heap) (G : owners) l v :
    settled h G -> (forall b, b < length h -> G b = 0 -> nth_error h' b = nth_error h b) ->
    l < length h -> G l = 0 -> view h l = Some v -> view h' l = Some v.
  Proof.
    intros S F L Z. pose proof (frozen_view_state h h' G) as V. unfold view. rewrite (F l L Z).
    destruct (nth_error h l) as [[|x|k at_]|] eqn:E; auto.
    - destruct (view_state h l) as [s|] eqn:Es; [|discriminate]. now rewrite (V l s).
    - pose proof (S l _ E Z) as R. cbn in R.
      destruct (dget "state" at_) as [[| |ls]|] eqn:Ed; try discriminate.
      apply dget_In in Ed. apply (proj1 (Forall_forall _ _) R) in Ed. cbn in Ed. destruct Ed as [L1 Z1].
      destruct (view_state h ls) as [s|] eqn:Es; [|discriminate]. now rewrite (V ls s).
  Qed.
  Lemma shows_frozen (h h' : heap) (G : owners) p vs :
    settled h G -> (forall b, b < length h -> G b = 0 -> nth_error h' b = nth_error h b) ->
    Forall (fun l => l < length h /\ G l = 0) p -> shows h p vs -> shows h' p vs.
  Proof.
    intros S F P H. unfold shows in *. induction H as [|l v p vs Hv H IH]; constructor; inversion P as [|? ? [L Z] P']; subst.
    - eapply frozen_view; eauto.
    - auto.
  Qed.

  Lemma Forall2_split {A B} (R : A -> B -> Prop) xs ys1 y ys2 :
    Forall2 R xs (ys1 ++ y :: ys2) ->
    exists xs1 x xs2, xs = xs1 ++ x :: xs2 /\ Forall2 R xs1 ys1 /\ R x y /\ Forall2 R xs2 ys2.
  Proof.
    revert xs. induction ys1 as [|z ys1 IH]; intros xs H; cbn in H.
    - inversion H as [|x y' xs' ys' H1 H2]; subst. exists [], x, xs'. auto.
    - inversion H as [|x y' xs' ys' H1 H2]; subst. destruct (IH _ H2) as (xs1 & x1 & xs2 & -> & G1 & G2 & G3).
      exists (x :: xs1), x1, xs2. auto.
  Qed.
  Lemma Forall2_in {A B} (R R' : A -> B -> Prop) xs ys :
    (forall x y, In x xs -> R x y -> R' x y) -> Forall2 R xs ys -> Forall2 R' xs ys.
  Proof. intros H F. induction F; constructor; auto using in_eq, in_cons. Qed.
  Lemma fits_more h G vs t id cq : fits h G vs id cq -> fits h G (vs ++ t) id cq.
  Proof. intros (r & n & w & hs & p & T & E). exists r, n, w, hs, p. split; [exact T|]. intros u. rewrite <- app_assoc. apply E. Qed.

  (** ** Preservation *)
  Lemma invariant_start vs0 h p rs es c q :
    invariant vs0 (mkC h p rs es) ->
    (forall G vs, settled h G -> shows h p vs -> Forall (fun l => l < length h /\ G l = 0) p ->
       exists r, rprog (length h) rloc (start_world h G) q q /\ agrees (exec q h) r /\ forall t, pure_do (vs ++ t) c = r) ->
    invariant vs0 (mkC h p (rs ++ [(c, q)]) es).
  Proof.
    intros (G & ids & fresh & vs & H1 & H2 & H3 & H4 & H5 & H6 & H7 & H8) Q. cbn in *.
    destruct (Q G vs H4 H5 H6) as (r & P & A & E).
    exists G, (ids ++ [S fresh]), (S (S fresh)), vs. cbn.
    split; [|split; [|split; [|split; [exact H4|split; [exact H5|split; [exact H6|split; [exact H7|]]]]]]].
    - apply NoDup_Add with (a := S fresh) (l := ids); [|split; [exact H1|]].
      { rewrite <- (app_nil_r ids) at 1. apply Add_app. }
      intros I. apply (proj1 (Forall_forall _ _) H2) in I. lia.
    - apply Forall_app. split; [|constructor; [lia|constructor]]. eapply Forall_impl; [|exact H2]. cbn. lia.
    - intros l. specialize (H3 l). lia.
    - apply Forall2_app; [exact H8|]. constructor; [|constructor].
      exists r, (length h), (start_world h G), h, q. split; [|exact E]. cbn. apply tracked_start; auto.
      intros b _ B. specialize (H3 b). lia.
  Qed.

  Lemma start_len h G : length h <= length (start_world h G).
  Proof. unfold start_world. now rewrite map_length, seq_length. Qed.

  Lemma NoDup_middle {A} (a : A) l1 l2 : NoDup (l1 ++ a :: l2) -> NoDup (l1 ++ l2) /\ ~ In a (l1 ++ l2).
  Proof. intros H. split; [eapply NoDup_remove_1; exact H|apply NoDup_remove_2; exact H]. Qed.

  Lemma invariant_step vs0 c c' : invariant vs0 c -> step c c' -> invariant vs0 c'.
  Proof.
    intros I S. destruct S as [h p rs es i l m Hi|h p rs es em b d eps dep|h p rs1 c q rs2 es q' h' A
                              |h p rs1 c l rs2 es|h p rs1 c e rs2 es|h p rs1 r rs2 es].
    - apply invariant_start; [exact I|]. intros G vs HS Hsh Hp.
      assert (Hv : exists v, nth_error vs i = Some v /\ view h l = Some v).
      { clear -Hsh Hi. unfold shows in Hsh. revert i Hi. induction Hsh as [|l0 v0 p vs H0 Hs IH]; intros [|i] E; try discriminate; cbn in *.
        - injection E as <-. eauto.
        - eauto. }
      destruct Hv as (v & Ev & Hv). exists (pure_call m v). split; [|split].
      + apply rp_call; [apply start_len|]. apply start_rloc. split; [reflexivity|].
        exact (proj1 (Forall_forall _ _) Hp l (nth_error_In _ _ Hi)).
      + now apply sim_call.
      + intros t. cbn. rewrite nth_error_app1; [now rewrite Ev|]. apply nth_error_Some. congruence.
    - apply invariant_start; [exact I|]. intros G vs HS Hsh Hp. exists (fmap PBuilder (new_builder_with em b d eps dep)).
      split; [apply rp_new_builder, start_len|]. split; [apply sim_new_builder|reflexivity].
    - destruct I as (G & ids & fresh & vs & H1 & H2 & H3 & H4 & H5 & H6 & H7 & H8). cbn in *.
      apply Forall2_split in H8 as (ids1 & id & ids2 & -> & F1 & (r & n & w & hs & pp & T & E) & F2). cbn in *.
      assert (Hid : 0 < id < fresh) by (apply (proj1 (Forall_forall _ _) H2); apply in_elt).
      destruct (tracked_access _ _ _ _ _ _ _ _ _ _ _ T A ltac:(lia)) as (w' & hs' & pp' & G' & T' & Q1 & Q2 & Q3 & Q4 & Q5).
      assert (FR : forall b, b < length h -> G b = 0 -> nth_error h' b = nth_error h b) by (intros b L Z; apply Q3; [exact L|lia]).
      assert (OTH : forall id' cq, id' <> id -> id' <> 0 -> fits h G vs id' cq -> fits h' G' vs id' cq).
      { intros id' cq Ne Nz (r' & n' & w0 & hs0 & p0 & T0 & E0). exists r', n', w0, hs0, p0. split; [|exact E0].
        eapply tracked_frame; [exact T0| |].
        - intros b L [Z|Z]; (split; [apply Q3; [exact L|lia]|now apply Q2]).
        - intros b L Z. destruct (Nat.lt_ge_cases b (length h)) as [Lb|Lb].
          + split; [exact Lb|]. now rewrite <- Q2.
          + exfalso. rewrite Q4 in Z by assumption. congruence. }
      destruct (NoDup_middle _ _ _ H1) as [_ Hni].
      exists G', (ids1 ++ id :: ids2), fresh, vs. cbn.
      split; [exact H1|]. split; [exact H2|]. split; [intros l; destruct (Q5 l) as [-> | ->]; [apply H3|lia]|].
      split; [|split; [eapply shows_frozen; eauto|split; [|split; [exact H7|]]]].
      + intros l o El Z. destruct (Nat.lt_ge_cases l (length h)) as [Ll|Ll].
        * rewrite Q2 in Z by exact Ll. rewrite FR in El by assumption.
          eapply refs_in_impl; [|exact (H4 l o El Z)]. intros l' [L' Z']. split; [lia|]. now rewrite Q2.
        * exfalso. rewrite Q4 in Z; [lia|exact Ll|]. apply nth_error_Some. congruence.
      + eapply Forall_impl; [|exact H6]. cbn. intros l [L Z]. split; [lia|]. now rewrite Q2.
      + apply Forall2_app; [|constructor].
        * eapply Forall2_in; [|exact F1]. intros x y Ix Fx. apply OTH; [intros ->; apply Hni, in_or_app; auto| |exact Fx].
          intros ->. pose proof (proj1 (Forall_forall _ _) H2 0 (in_or_app _ _ _ (or_introl Ix))) as Z0. cbv beta in Z0. lia.
        * exists r, n, w', hs', pp'. split; [exact T'|exact E].
        * eapply Forall2_in; [|exact F2]. intros x y Ix Fx. apply OTH; [intros ->; apply Hni, in_or_app; auto| |exact Fx].
          intros ->. pose proof (proj1 (Forall_forall _ _) H2 0 (in_or_app ids1 (id :: ids2) 0 (or_intror (in_cons id 0 ids2 Ix)))) as Z0. cbv beta in Z0. lia.
    - destruct I as (G & ids & fresh & vs & H1 & H2 & H3 & H4 & H5 & H6 & H7 & H8). cbn in *.
      apply Forall2_split in H8 as (ids1 & id & ids2 & -> & F1 & (r & n & w & hs & pp & T & E) & F2). cbn in *.
      assert (Hid : 0 < id < fresh) by (apply (proj1 (Forall_forall _ _) H2); apply in_elt).
      pose proof (tr_prog _ _ _ _ _ _ _ _ _ T) as P. inversion P as [w0 a0 b0 Hl| | | |]; subst; clear P.
      pose proof (tr_result _ _ _ _ _ _ _ _ _ T) as Ag. cbn [exec] in Ag.
      specialize (E []) as E0. rewrite app_nil_r in E0.
      destruct r as [v|e]; cbn in Ag; [|discriminate]. destruct Ag as (l1 & [= <-] & Hv). cbn in Hv.
      apply (linked_view w hs h _ _ _ (tr_link _ _ _ _ _ _ _ _ _ T) Hl) in Hv.
      set (G' := fun b => if Nat.eqb (G b) id then 0 else G b).
      assert (G0 : forall b, G b = 0 -> G' b = 0) by (intros b Z; unfold G'; rewrite Z; now destruct (Nat.eqb 0 id)).
      assert (G1 : forall b, G b = id -> G' b = 0) by (intros b Z; unfold G'; rewrite Z; now rewrite Nat.eqb_refl).
      assert (G2 : forall b, G b <> id -> G' b = G b) by (intros b Z; unfold G'; now rewrite (proj2 (Nat.eqb_neq _ _) Z)).
      destruct (NoDup_middle _ _ _ H1) as [Hnd Hni].
      apply Forall_app in H2 as [H2a H2b]. inversion H2b as [|? ? _ H2c]; subst.
      exists G', (ids1 ++ ids2), fresh, (vs ++ [v]). cbn.
      split; [exact Hnd|]. split; [apply Forall_app; auto|].
      split; [intros b; unfold G'; destruct (Nat.eqb (G b) id); [lia|apply H3]|].
      split; [|split; [|split; [|split]]].
      + intros b o Eb Z. destruct (Nat.eq_dec (G b) id) as [Zb|Zb].
        * assert (Lb : b < length h) by (apply nth_error_Some; congruence).
          destruct (tr_all _ _ _ _ _ _ _ _ _ T b Lb Zb) as [a Ha].
          destruct (tr_link _ _ _ _ _ _ _ _ _ T a b Ha) as (o1 & o2 & _ & E2 & E3).
          assert (o2 = o) as -> by congruence.
          eapply refs_in_impl; [|exact (robj_refs _ _ _ E3)]. intros b' [a' Ha'].
          split; [eapply tr_bound; eauto|]. destruct (tr_whose _ _ _ _ _ _ _ _ _ _ _ T Ha'); auto.
        * rewrite G2 in Z by exact Zb. eapply refs_in_impl; [|exact (H4 b o Eb Z)]. intros b' [L' Z']. auto.
      + apply Forall2_app; [exact H5|]. constructor; [exact Hv|constructor].
      + apply Forall_app. split; [eapply Forall_impl; [|exact H6]; cbn; intuition auto|].
        constructor; [|constructor]. split; [eapply tr_bound; eauto|].
        destruct (tr_whose _ _ _ _ _ _ _ _ _ _ _ T Hl); auto.
      + rewrite !map_app. cbn [map]. rewrite pure_run_snoc, H7. cbn [fst snd]. rewrite E0. reflexivity.
      + assert (OTH : forall id' cq, id' <> id -> 0 < id' -> fits h G vs id' cq -> fits h G' (vs ++ [v]) id' cq).
        { intros id' cq Ne Nz Fx. apply fits_more. destruct Fx as (r' & n' & w0 & hs0 & p0 & T0 & Et).
          exists r', n', w0, hs0, p0. split; [|exact Et]. eapply tracked_frame; [exact T0| |].
          - intros b L [Z|Z]; (split; [reflexivity|]); [rewrite Z; auto|apply G2; congruence].
          - intros b L Z. split; [exact L|]. unfold G' in Z. destruct (Nat.eqb (G b) id); [lia|exact Z]. }
        apply Forall2_app.
        * eapply Forall2_in; [|exact F1]. intros x y Ix Fx. apply OTH; [intros ->; apply Hni, in_or_app; auto| |exact Fx].
          pose proof (proj1 (Forall_forall _ _) H2a x Ix) as Z0. cbv beta in Z0. lia.
        * eapply Forall2_in; [|exact F2]. intros x y Ix Fx. apply OTH; [intros ->; apply Hni, in_or_app; auto| |exact Fx].
          pose proof (proj1 (Forall_forall _ _) H2c x Ix) as Z0. cbv beta in Z0. lia.
    - destruct I as (G & ids & fresh & vs & H1 & H2 & H3 & H4 & H5 & H6 & H7 & H8). cbn in *.
      apply Forall2_split in H8 as (ids1 & id & ids2 & -> & F1 & (r & n & w & hs & pp & T & E) & F2). cbn in *.
      pose proof (tr_prog _ _ _ _ _ _ _ _ _ T) as P. inversion P as [|w0 e0| | |]; subst; clear P.
      pose proof (tr_result _ _ _ _ _ _ _ _ _ T) as Ag. cbn [exec] in Ag.
      specialize (E []) as E0. rewrite app_nil_r in E0.
      destruct r as [v|e1]; cbn in Ag; [destruct Ag as (? & ? & _); discriminate|]. injection Ag as <-.
      destruct (NoDup_middle _ _ _ H1) as [Hnd Hni].
      apply Forall_app in H2 as [H2a H2b]. inversion H2b as [|? ? _ H2c]; subst.
      exists G, (ids1 ++ ids2), fresh, vs. cbn.
      split; [exact Hnd|]. split; [apply Forall_app; auto|]. split; [exact H3|]. split; [exact H4|]. split; [exact H5|]. split; [exact H6|].
      split; [|now apply Forall2_app]. rewrite !map_app. cbn [map]. rewrite pure_run_snoc, H7. cbn [fst snd]. rewrite E0. reflexivity.
    - destruct I as (G & ids & fresh & vs & H1 & H2 & H3 & H4 & H5 & H6 & H7 & H8). cbn in *.
      apply Forall2_split in H8 as (ids1 & id & ids2 & -> & F1 & _ & F2).
      destruct (NoDup_middle _ _ _ H1) as [Hnd Hni].
      apply Forall_app in H2 as [H2a H2b]. inversion H2b as [|? ? _ H2c]; subst.
      exists G, (ids1 ++ ids2), fresh, vs. cbn.
      split; [exact Hnd|]. split; [apply Forall_app; auto|]. split; [exact H3|]. split; [exact H4|]. split; [exact H5|]. split; [exact H6|].
      split; [exact H7|]. now apply Forall2_app.
  Qed.
  Lemma invariant_steps vs0 c c' : invariant vs0 c -> steps c c' -> invariant vs0 c'.
  Proof. intros I S. revert I. induction S as [c|c1 c2 c3 S IH S1]; [auto|]. intros I. eapply invariant_step; [apply IH; exact I|exact S1]. Qed.

  (** ** The pool and the list of ended calls only grow *)
  Lemma steps_grow (c c' : config N) : steps c c' ->
    (exists t, c_pool c' = c_pool c ++ t) /\ (exists t, c_ended c' = c_ended c ++ t).
  Proof.
    intros S. induction S as [c|c1 c2 c3 S ((t & IH1) & (u & IH2)) S1]; [split; exists []; now rewrite app_nil_r|].
    destruct S1; cbn in *; subst; split; eauto; try (eexists; rewrite <- app_assoc; reflexivity).
  Qed.
  Lemma pure_run_app (vs : list (pyval N)) cs cs' :
    exists es t, pure_run vs (cs ++ cs') = (fst (pure_run vs cs) ++ es, snd (pure_run vs cs) ++ t).
  Proof.
    induction cs' as [|c cs' IH] using rev_ind.
    - exists [], []. rewrite !app_nil_r. now destruct (pure_run vs cs).
    - destruct IH as (es & t & E). rewrite app_assoc, pure_run_snoc, E. cbv zeta.
      destruct (pure_do _ c) as [v|e]; [exists (es ++ [outcome (Ok v)]), (t ++ [v])|exists (es ++ [outcome (Err (A:=pyval N) e)]), t];
        now rewrite ?app_assoc.
  Qed.
End Invariant.
