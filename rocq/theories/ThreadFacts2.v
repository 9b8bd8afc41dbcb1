(** * Every method makes the same accesses whatever addresses it gets *)
From Verif Require Import Base PyTree Tensor Num Utils States Controller Builder Viewer Editor
  Heap HeapSpec HeapFacts HeapFacts2 HeapFacts3 ThreadSpec ThreadFacts.

Section Methods.
  Context {N : numsys}.
  Notation st := (state N).
  Notation tr := (tree (array N)).

  Ltac lifts E :=
    match type of E with
    | ext ?w ?w' =>
        repeat match goal with
               | H : rloc w ?a ?b |- _ => apply (rloc_ext w w' a b E) in H
               | H : rown ?n w ?a ?b |- _ => apply (rown_ext n w w' a b E) in H
               | H : rattr w ?a ?b |- _ => apply (rattr_ext w w' a b E) in H
               | H : ?n <= length w |- _ => apply (len_ext n w w' E) in H
               end; clear E
    end.
  Ltac next_ w a b E H := intros w a b E H; cbv beta in H; lifts E; unfold req in H.
  Ltac bind_ lem := eapply rp_bind; [solve [lem]|].

  Lemma rp_new_instance n w k s s' :
    n <= length w -> rloc w s s' -> rprog (N := N) n (rown n) w (new_instance k s) (new_instance k s').
  Proof.
    intros Hn Hs. unfold new_instance, immutable_init, make_immutable.
    eapply rp_bind; [apply rp_new; [exact Hn|split; [reflexivity|constructor]]|]. next_ w1 a b E H.
    eapply rp_bind; [apply rp_setattr; [exact H|reflexivity]|]. next_ w2 a2 b2 E H2.
    eapply rp_bind; [apply rp_setattr; [exact H|exact Hs]|]. next_ w3 a3 b3 E H3.
    eapply rp_bind; [apply rp_setattr; [exact H|reflexivity]|]. next_ w4 a4 b4 E H4.
    now constructor.
  Qed.
  Lemma rp_new_editor n w s s' m :
    n <= length w -> rloc w s s' -> rprog (N := N) n (rown n) w (new_editor s m) (new_editor s' m).
  Proof.
    intros Hn Hs. unfold new_editor, immutable_init, make_immutable.
    eapply rp_bind; [apply rp_new; [exact Hn|split; [reflexivity|constructor]]|]. next_ w1 a b E H.
    eapply rp_bind; [apply rp_setattr; [exact H|reflexivity]|]. next_ w2 a2 b2 E H2.
    eapply rp_bind; [apply rp_setattr; [exact H|reflexivity]|]. next_ w3 a3 b3 E H3.
    eapply rp_bind; [apply rp_setattr; [exact H|exact Hs]|]. next_ w4 a4 b4 E H4.
    eapply rp_bind; [apply rp_setattr; [exact H|reflexivity]|]. next_ w5 a5 b5 E H5.
    now constructor.
  Qed.
  Lemma rp_self_state n w l l' : rloc w l l' -> rprog (N := N) n rloc w (self_state l) (self_state l').
  Proof.
    intros Hl. eapply rp_bind; [now apply rp_read_inst|]. intros w' [k a] [k' a'] E [Hk Ha]. cbn in Hk, Ha. subst k'.
    pose proof (rattrs_dget _ _ _ a_state Ha) as G.
    destruct (dget a_state a) as [[]|], (dget a_state a') as [[]|]; cbn in G; try contradiction; constructor; exact G.
  Qed.
  Lemma rp_self_mode n w l l' : rloc w l l' -> rprog (N := N) n req w (self_mode l) (self_mode l').
  Proof.
    intros Hl. eapply rp_bind; [now apply rp_read_inst|]. intros w' [k a] [k' a'] E [Hk Ha]. cbn in Hk, Ha. subst k'.
    pose proof (rattrs_dget _ _ _ a_error_mode Ha) as G.
    destruct (dget a_error_mode a) as [[]|], (dget a_error_mode a') as [[]|]; cbn in G; try contradiction; constructor; exact G.
  Qed.
  (** A state object read twice: equal but for the addresses of the dictionaries. *)
  Ltac open_state x x' H :=
    destruct x as [?xe ?xi ?xr ?xp ?xd ?xa ?xu ?xdc ?xem], x' as [?xe ?xi ?xr ?xp ?xd ?xa ?xu ?xdc ?xem]; unfold rstate in H;
    cbn [h_epsilon h_iterations h_residuals h_probabilities h_defaults h_accumulators h_updates h_depression_constant h_error_mode] in *;
    destruct H as (? & ? & ? & ? & ? & ? & ? & ? & ?); subst.
  Lemma rp_deref n w l l' : rloc w l l' -> rprog (N := N) n req w (deref l) (deref l').
  Proof.
    intros Hl. eapply rp_bind; [now apply rp_read_state|]. next_ w1 x x' E H. open_state x x' H.
    eapply rp_bind; [apply rp_read_dict; eassumption|]. next_ w2 d d' E H. subst d'.
    eapply rp_bind; [apply rp_read_dict; eassumption|]. next_ w3 d2 d2' E H. subst d2'.
    eapply rp_bind; [apply rp_read_dict; eassumption|]. next_ w4 d3 d3' E H. subst d3'.
    now constructor.
  Qed.
  Definition ropt (w : world) (o o' : option loc) : Prop :=
    match o, o' with Some a, Some b => rloc w a b | None, None => True | _, _ => False end.
  Definition rargs (w : world) (r r' : hreplace_args N) : Prop :=
    hr_epsilon r = hr_epsilon r' /\ hr_iterations r = hr_iterations r' /\ hr_residuals r = hr_residuals r' /\
    hr_probabilities r = hr_probabilities r' /\ ropt w (hr_accumulators r) (hr_accumulators r') /\
    ropt w (hr_defaults r) (hr_defaults r') /\ ropt w (hr_updates r) (hr_updates r') /\
    hr_depression_constant r = hr_depression_constant r' /\ hr_error_mode r = hr_error_mode r'.
  Lemma ropt_ext w w' a b : ext w w' -> ropt w a b -> ropt w' a b.
  Proof. destruct a, b; cbn; auto. apply rloc_ext. Qed.
  Lemma rargs_ext w w' r r' : ext w w' -> rargs w r r' -> rargs w' r r'.
  Proof. unfold rargs. intuition eauto using ropt_ext. Qed.
  Lemma ropt_default w o o' a b : ropt w o o' -> rloc w a b -> rloc w (default o a) (default o' b).
  Proof. destruct o, o'; cbn; auto; contradiction. Qed.
  Lemma rp_hreplace n w l l' r r' :
    n <= length w -> rloc w l l' -> rargs w r r' -> rprog (N := N) n (rown n) w (hreplace l r) (hreplace l' r').
  Proof.
    intros Hn Hl Hr. destruct r as [e i rs p a d u dep m], r' as [e' i' rs' p' a' d' u' dep' m'].
    unfold rargs in Hr.
    cbn [hr_epsilon hr_iterations hr_residuals hr_probabilities hr_accumulators hr_defaults hr_updates
         hr_depression_constant hr_error_mode] in Hr.
    destruct Hr as (-> & -> & -> & -> & Ha & Hd & Hu & -> & ->).
    eapply rp_bind; [now apply rp_read_state|]. intros w1 x x' E H.
    apply (ropt_ext _ _ _ _ E) in Ha, Hd, Hu. lifts E. open_state x x' H.
    eapply rp_bind with (R := req). { cbn. destruct dep'; now constructor. }
    intros w2 dd dd' E Hdd. apply (ropt_ext _ _ _ _ E) in Ha, Hd, Hu. lifts E. unfold req in Hdd. subst dd'.
    eapply rp_bind with (R := req). { cbn. destruct m'; now constructor. }
    intros w3 em em' E Hem. apply (ropt_ext _ _ _ _ E) in Ha, Hd, Hu. lifts E. unfold req in Hem. subst em'.
    apply rp_new; [assumption|]. cbn.
    unfold rstate.
    cbn [h_epsilon h_iterations h_residuals h_probabilities h_defaults h_accumulators h_updates h_depression_constant h_error_mode].
    repeat split; auto using ropt_default.
  Qed.

  Ltac own_ := match goal with H : rown ?n ?w ?a ?b |- rloc ?w ?a ?b => exact (proj2 H) | H : rloc ?w ?a ?b |- rloc ?w ?a ?b => exact H | |- True => exact I end.
  Ltac args := solve [unfold rargs; cbn; repeat split; first [own_ | reflexivity]].
  Ltac after :=
    let w := fresh "w" in let a := fresh "a" in let b := fresh "a" in let E := fresh "E" in let H := fresh "H" in
    intros w a b E H; cbv beta in H; lifts E;
    lazymatch type of H with
    | req _ _ _ => unfold req in H; subst b
    | rstate _ _ _ => open_state a b H
    | _ => idtac
    end.
  Ltac own := match goal with H : rown ?n ?w ?a ?b |- rloc ?w ?a ?b => exact (proj2 H) | |- _ => eassumption end.
  Ltac rp1 :=
    first
      [ apply rp_err
      | apply rp_ok; first [own | assumption | reflexivity]
      | eapply rp_weaken;
        [ lazymatch goal with
          | |- rprog _ _ _ (new_instance _ _) _ => apply rp_new_instance; [eassumption | own]
          | |- rprog _ _ _ (new_editor _ _) _ => apply rp_new_editor; [eassumption | own]
          end
        | let Z := fresh in intros ? ? ? _ Z; exact (proj2 Z) ]
      | apply rp_self_state; own
      | apply rp_dict_set; eassumption
      | apply rp_lift
      | lazymatch goal with |- rprog _ _ _ (mbind _ _) (mbind _ _) => idtac end; eapply rp_bind;
        [ first [ apply rp_lift
                | apply rp_self_state; own | apply rp_self_mode; own
                | apply rp_read_state; own | apply rp_deref; own | apply rp_read_dict; own
                | apply rp_dict_copy; [eassumption | own]
                | apply rp_dict_new; eassumption
                | apply rp_hreplace; [eassumption | own | args]
                | apply rp_dict_set; eassumption | apply rp_dict_pop; eassumption
                | apply rp_new; [eassumption | first [reflexivity | cbn; unfold rown in *; unfold rstate; cbn; intuition auto]] ]
        | after ] ].
  Ltac rps := repeat (cbv zeta; rp1).

  Lemma rp_cache n w l l' k t : n <= length w -> rloc w l l' ->
    rprog (N := N) n rloc w (h_cache_update l k t) (h_cache_update l' k t).
  Proof.
    intros Hn Hl. unfold h_cache_update. rps. destruct (dget k _); [|apply rp_err].
    destruct (negb _); [apply rp_err|]. rps.
  Qed.
  Lemma rp_iterate_loop n w l l' h names a a' u u' : n <= length w -> rloc w l l' -> rown n w a a' -> rown n w u u' ->
    rprog (N := N) n req w (h_iterate_loop l h names a u) (h_iterate_loop l' h names a' u').
  Proof.
    revert w. induction names as [|name names IH]; intros w Hn Hl Ha Hu; cbn [h_iterate_loop]; [now constructor|].
    eapply rp_bind with (R := req).
    - apply rp_rewrap. rps.
    - after. now apply IH.
  Qed.
  Lemma rp_iterate n w l l' p : n <= length w -> rloc w l l' ->
    rprog (N := N) n rloc w (h_iterate_act l p) (h_iterate_act l' p).
  Proof.
    intros Hn Hl. unfold h_iterate_act. rps. match goal with x : (array N * array N * array N)%type |- _ => destruct x as [[hp r'] p'] end. rps.
    eapply rp_bind; [apply rp_iterate_loop; eassumption|]. after. rps.
  Qed.
  Lemma rp_reset_loop n w l l' un names o o' : n <= length w -> rloc w l l' -> rown n w o o' ->
    rprog (N := N) n req w (h_reset_loop l un names o) (h_reset_loop l' un names o').
  Proof.
    revert w. induction names as [|name names IH]; intros w Hn Hl Ho; cbn [h_reset_loop]; [now constructor|].
    rps. now apply IH.
  Qed.
  Lemma rp_reset n w l l' : n <= length w -> rloc w l l' ->
    rprog (N := N) n rloc w (h_reset_batches l) (h_reset_batches l').
  Proof.
    intros Hn Hl. unfold h_reset_batches. rps.
    eapply rp_bind; [apply rp_reset_loop; eassumption|]. after. rps.
  Qed.
  Lemma rp_convert n w l l' k : n <= length w -> rloc w l l' -> rprog (N := N) n rloc w (h_convert k l) (h_convert k l').
  Proof. intros Hn Hl. unfold h_convert. rps. Qed.
  Lemma rp_load n w l l' k : n <= length w -> rloc w l l' -> rprog (N := N) n rloc w (h_load k l) (h_load k l').
  Proof. intros Hn Hl. unfold h_load. rps. Qed.
  Definition rsix (w : world) (x y : array N * array N * array N * loc * loc * loc) : Prop :=
    let '(i, r, p, a, d, u) := x in let '(i', r', p', a', d', u') := y in
    i = i' /\ r = r' /\ p = p' /\ rloc w a a' /\ rloc w d d' /\ rloc w u u'.
  Lemma rp_transform n w l l' f : n <= length w -> rloc w l l' ->
    rprog (N := N) n rloc w (h_transform l f) (h_transform l' f).
  Proof.
    intros Hn Hl. unfold h_transform. rps. eapply rp_bind with (R := rsix).
    - apply rp_rewrap. rps. apply rp_ok. cbn. unfold rown in *. intuition auto.
    - intros w1 [[[[[i r] p] a1] d] u] [[[[[i' r'] p'] a1'] d'] u'] E H1. cbn in H1.
      destruct H1 as (-> & -> & -> & H1 & H2 & H3). lifts E. rps.
  Qed.
  Lemma rp_mask n w l l' d mk : n <= length w -> rloc w l l' ->
    rprog (N := N) n rloc w (h_mask_data l d mk) (h_mask_data l' d mk).
  Proof. intros Hn Hl. unfold h_mask_data. rps. now apply rp_transform. Qed.
  Lemma rp_define n w l l' k t : n <= length w -> rloc w l l' ->
    rprog (N := N) n rloc w (h_define l k t) (h_define l' k t).
  Proof. intros Hn Hl. unfold h_define. rps. Qed.
  Lemma rp_new_builder n w em b d eps dep : n <= length w ->
    rprog (N := N) n rloc w (h_new_builder em b d eps dep) (h_new_builder em b d eps dep).
  Proof.
    intros Hn. unfold h_new_builder. rps. eapply rp_bind with (R := req).
    - destruct em; now constructor.
    - after. rps.
  Qed.
  Lemma rp_checks n w l l' f : n <= length w -> rloc w l l' ->
    rprog (N := N) n req w (h_execute_checks l f) (h_execute_checks l' f).
  Proof. intros Hn Hl. unfold h_execute_checks. rps. Qed.
  Lemma rp_set_field n w l l' r r' : n <= length w -> rloc w l l' -> rargs w r r' ->
    rprog (N := N) n rloc w (h_set_field l r) (h_set_field l' r').
  Proof.
    intros Hn Hl Hr. unfold h_set_field. eapply rp_bind; [now apply rp_self_state|].
    intros w1 s s' E H. apply (rargs_ext _ _ _ _ E) in Hr. lifts E.
    eapply rp_bind; [now apply rp_hreplace|]. after. rps.
  Qed.
  Lemma rp_rebuild n w mk mk' l l' : n <= length w -> rloc w l l' ->
    (forall w' a b, ext w w' -> n <= length w' -> rloc w' a b -> rprog (N := N) n rloc w' (mk a) (mk' b)) ->
    rprog (N := N) n rloc w (h_rebuild mk l) (h_rebuild mk' l').
  Proof.
    intros Hn Hl Hmk. unfold h_rebuild.
    eapply rp_bind; [now apply rp_self_state|]. intros w1 s s' E1 H1. pose proof E1 as F1. lifts E1.
    eapply rp_bind; [now apply rp_deref|]. intros w2 x x' E2 H2. pose proof (ext_trans _ _ _ F1 E2) as F2. lifts E2. unfold req in H2. subst x'.
    destruct (tree_flatten_state x) as [flat td].
    eapply rp_bind; [apply rp_lift|]. intros w3 y y' E3 H3. pose proof (ext_trans _ _ _ F2 E3) as F3. lifts E3. unfold req in H3. subst y'.
    eapply rp_bind; [apply rp_new; [assumption|reflexivity]|]. intros w4 d d' E4 H4. pose proof (ext_trans _ _ _ F3 E4) as F4. lifts E4.
    eapply rp_bind; [apply rp_new; [assumption|reflexivity]|]. intros w5 a a' E5 H5. pose proof (ext_trans _ _ _ F4 E5) as F5. lifts E5.
    eapply rp_bind; [apply rp_new; [assumption|reflexivity]|]. intros w6 u u' E6 H6. pose proof (ext_trans _ _ _ F5 E6) as F6. lifts E6.
    eapply rp_bind; [apply rp_new; [assumption|]|].
    { unfold robj, rstate.
      cbn [h_epsilon h_iterations h_residuals h_probabilities h_defaults h_accumulators h_updates h_depression_constant h_error_mode].
      unfold rown in *. intuition auto. }
    intros w7 z z' E7 H7. pose proof (ext_trans _ _ _ F6 E7) as F7. lifts E7. apply Hmk; auto. exact (proj2 H7).
  Qed.

  Lemma rp_call n w m l l' : n <= length w -> rloc w l l' ->
    rprog (N := N) n rloc w (heap_call m l) (heap_call m l').
  Proof.
    intros Hn Hl. unfold heap_call. eapply rp_bind; [now apply rp_get|]. intros w1 o o' E H. lifts E.
    destruct o as [d0|x0|k0 at0], o' as [d0'|x0'|k0' at0']; cbn in H; try contradiction.
    - destruct m; apply rp_err.
    - destruct m; try apply rp_err; try (now apply rp_load). unfold h_edit_save. rps.
    - destruct H as [<- H].
      destruct m, k0; try apply rp_err;
        lazymatch goal with
        | |- rprog _ _ _ (h_cache_update _ _ _) _ => now apply rp_cache
        | |- rprog _ _ _ (h_iterate_act _ _) _ => now apply rp_iterate
        | |- rprog _ _ _ (h_reset_batches _) _ => now apply rp_reset
        | |- rprog _ _ _ (h_convert _ _) _ => now apply rp_convert
        | |- rprog _ _ _ (h_transform _ _) _ => now apply rp_transform
        | |- rprog _ _ _ (h_mask_data _ _ _) _ => now apply rp_mask
        | |- rprog _ _ _ (h_define _ _ _) _ => now apply rp_define
        | |- rprog _ _ _ (h_save _) _ => now apply rp_self_state
        | |- rprog _ _ _ (h_unhalted_only _) _ => unfold h_unhalted_only; rps; now apply rp_mask
        | |- rprog _ _ _ (h_halted_only _) _ => unfold h_halted_only; rps; now apply rp_mask
        | |- rprog _ _ _ (h_define_by_shape _ _ _ _ _) _ => unfold h_define_by_shape; rps; now apply rp_define
        | |- rprog _ _ _ (h_delete_definition _ _) _ => unfold h_delete_definition; solve [rps]
        | |- rprog _ _ _ (h_edit_controller _ _) _ => unfold h_edit_controller; solve [rps]
        | |- rprog _ _ _ (h_rebuild _ _) _ => apply rp_rebuild; [assumption|assumption|]; intros; rps
        | |- rprog _ _ _ (mbind (self_mode _) _) _ => rps; apply rp_rebuild; [assumption|assumption|]; intros; rps
        | _ => 
            unfold h_set_probabilities, h_set_residuals, h_set_iterations, h_set_epsilon,
              h_set_accumulator, h_set_defaults, h_set_updates;
            eapply rp_bind; [apply rp_checks; assumption | after]; rps; apply rp_set_field; [assumption|assumption|args]
        end.
  Qed.
End Methods.
