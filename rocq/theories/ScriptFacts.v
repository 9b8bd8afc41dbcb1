(** * Reading scripts: histories without resets. *)
From Coq Require Import Lia.
From Verif Require Import Base PyTree Tensor Num States Controller Wf History ElementSpec ScalarSpec.
From Verif Require Import BaseFacts PyTreeFacts ControllerFacts IterateFacts HistoryFacts ExactFacts ExactFacts2.

Section Scripts.
  Context {N : numsys}.
  Notation num := (val N).

  Lemma script_values i cs : forall g, Forall (fun c : call N => c <> CReset) cs ->
    map (option_map fst) (lines (fold_left (script_step i) cs g)) =
    map (option_map fst) (lines g) ++ map Some (values_of i cs).
  Proof.
    induction cs as [|c cs IH]; intros g F; [cbn; now rewrite app_nil_r|]. inversion F; subst.
    cbn [fold_left]. rewrite IH by assumption. unfold values_of. cbn [flat_map]. fold (values_of i cs).
    destruct c as [name item|h|]; cbn [script_step value_of app map]; [reflexivity| |congruence].
    destruct (nth_error (a_data h) i) as [v|]; cbn [lines app map]; [|reflexivity].
    rewrite map_app, <- app_assoc. reflexivity.
  Qed.
  Lemma stats_program_values i cs : Forall (fun c : call N => c <> CReset) cs ->
    stats_program i cs = map Some (values_of i cs).
  Proof. intros F. unfold stats_program, script_of. rewrite script_values by assumption. reflexivity. Qed.
  Lemma value_program_values i k l j cs prog : Forall (fun c : call N => c <> CReset) cs ->
    value_program i k l j cs prog -> exists es : list (num * num), prog = map Some es /\ map fst es = values_of i cs.
  Proof.
    intros F H. pose proof (stats_program_values i cs F) as E.
    assert (X : map (option_map fst) prog = map Some (values_of i cs)).
    { rewrite <- E. unfold stats_program. apply (f_equal (map (option_map fst))) in H. rewrite !map_map in H.
      etransitivity; [|etransitivity; [symmetry; exact H|]]; apply map_ext; intros [[? ?]|]; reflexivity. }
    clear H E. revert X. generalize (values_of i cs). induction prog as [|o prog IH]; intros [|v vs] X; try discriminate; [exists []; auto|].
    cbn [map] in X. injection X as X1 X2. destruct (IH vs X2) as (es & -> & E). destruct o as [[v' u]|]; [|discriminate].
    cbn [option_map fst] in X1. injection X1 as ->. exists ((v, u) :: es). cbn [map fst]. now rewrite E.
  Qed.

  Lemma script_updates (ok : num -> Prop) i k l j cs : forall g, Forall (update_values ok) cs ->
    let good (d : dict (tree (array N))) := forall u, update_at k l j d = Some u -> ok u in
    good (waiting g) -> Forall (fun o : option (num * dict (tree (array N))) => match o with Some e => good (snd e) | None => True end) (lines g) ->
    good (waiting (fold_left (script_step i) cs g)) /\
    Forall (fun o : option (num * dict (tree (array N))) => match o with Some e => good (snd e) | None => True end) (lines (fold_left (script_step i) cs g)).
  Proof.
    induction cs as [|c cs IH]; intros g F good Hw Hl; [auto|]. inversion F as [|? ? Fc F']; subst. cbn [fold_left].
    assert (Nil : good []) by (intros u; discriminate).
    apply IH; [exact F'| |]; destruct c as [name item|h|]; cbn [script_step].
    - cbn [waiting]. intros u Hu. unfold update_at in Hu. cbn [dget] in Hu.
      destruct (String.eqb k name) eqn:Ek; [|exact (Hw u Hu)].
      destruct (nth_error (leaves item) l) as [a|] eqn:Ea; [|discriminate].
      exact (Forall_nth _ _ _ _ (Forall_nth _ _ _ _ Fc Ea) Hu).
    - destruct (nth_error (a_data h) i); exact Nil.
    - exact Hw.
    - exact Hl.
    - destruct (nth_error (a_data h) i) as [v|]; cbn [lines]; [|exact Hl]. apply Forall_app. split; [exact Hl|]. constructor; [exact Hw|constructor].
    - cbn [lines]. apply Forall_app. split; [exact Hl|]. repeat constructor.
  Qed.
  Lemma value_program_updates (ok : num -> Prop) i k l j cs (es : list (num * num)) : Forall (update_values ok) cs ->
    value_program i k l j cs (map Some es) -> Forall ok (map snd es).
  Proof.
    intros F H. destruct (script_updates ok i k l j cs (mkScript [] []) F) as [_ L]; [intros u; discriminate|constructor|].
    fold (script_of i cs) in L. unfold value_program in H. rewrite map_map in H. revert H L. generalize (lines (script_of i cs)).
    induction es as [|[v u] es IH]; intros ls H L; [constructor|]. destruct ls as [|o ls]; [discriminate|].
    cbn [map option_map fst snd] in H. injection H as H1 H2. inversion L; subst. cbn [map snd]. constructor; [|now apply (IH ls)].
    destruct o as [[v' d]|]; [|discriminate]. cbn [option_map fst snd] in H1. injection H1 as _ H1.
    match goal with Q : forall u, _ = Some u -> ok u |- _ => exact (Q u H1) end.
  Qed.
  Lemma script_halting (ok : num -> Prop) i cs : forall g, Forall (halting_values ok) cs ->
    Forall (fun o => match option_map fst o with Some v => ok v | None => True end) (lines g) ->
    Forall (fun o => match option_map fst o with Some v => ok v | None => True end) (lines (fold_left (script_step i) cs g)).
  Proof.
    induction cs as [|c cs IH]; intros g F Hl; [exact Hl|]. inversion F as [|? ? Fc F']; subst. cbn [fold_left].
    apply IH; [exact F'|]. destruct c as [name item|h|]; cbn [script_step]; [exact Hl| |].
    - destruct (nth_error (a_data h) i) as [v|] eqn:Hv; cbn [lines]; [|exact Hl]. apply Forall_app. split; [exact Hl|].
      constructor; [|constructor]. exact (Forall_nth _ _ _ _ Fc Hv).
    - cbn [lines]. apply Forall_app. split; [exact Hl|]. repeat constructor.
  Qed.
  Lemma stats_program_halting (ok : num -> Prop) i cs : Forall (halting_values ok) cs ->
    Forall (fun o => match o with Some v => ok v | None => True end) (stats_program i cs).
  Proof.
    intros F. unfold stats_program. apply Forall_map. apply (script_halting ok i cs (mkScript [] [])); [exact F|constructor].
  Qed.
  Lemma returned_all (ok : call N -> Prop) (s : state N) cs : Forall ok cs -> Forall ok (returned s cs).
  Proof. rewrite !Forall_forall. intros F c H. apply F. eapply returned_incl; eauto. Qed.
End Scripts.
