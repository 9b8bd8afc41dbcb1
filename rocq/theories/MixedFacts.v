(** * Proofs: two formats *)
From Coq Require Import ZArith Reals Lia Lra Psatz.
From Flocq Require Import Core BinarySingleNaN.
From Verif Require Import Base PyTree Tensor Num FloatNum States Controller Wf History ElementSpec ScalarSpec FloatSpec Jit Mixed MixedSpec.
From Verif Require Import BaseFacts PyTreeFacts ControllerFacts IterateFacts HistoryFacts ExactFacts ExactFacts2 ScalarFacts ScriptFacts
  FloatFacts FloatFacts2 FloatFacts3 FloatFacts4 JitFacts.
Close Scope R_scope. Close Scope Z_scope. Open Scope list_scope. Open Scope nat_scope.

Section Facts.
  Context {pn en pw ew : Z} {Hpn : Prec_gt_0 pn} {Hmn : Prec_lt_emax pn en} {Hpw : Prec_gt_0 pw} {Hmw : Prec_lt_emax pw ew}.
  Notation Co := (FloatNum pn en).
  Notation Mix := (MixedNum pn en pw ew).
  Notation nar := (binary_float pn en).
  Notation wid := (binary_float pw ew).

  Lemma wider_conv (x : nar) : wider pn en pw ew -> is_finite x = true ->
    is_finite (f_conv pw ew x) = true /\ B2R (f_conv pw ew x) = B2R x.
  Proof.
    intros (A & B & C) F. destruct (conv_exact (p2 := pw) (e2 := ew) x) as (X & Y & _); auto.
    intros e. unfold SpecFloat.fexp. lia.
  Qed.

  (** ** The scalar program *)
  Section Program.
    Context (thr dep : nar).
    Notation mthr := (Nar thr : val Mix).
    Notation mdep := (Nar dep : val Mix).
    Definition lift (x : stats Co) : stats Mix :=
      mkStats (N := Mix) (Nar (cumulative x : nar)) (Nar (remainder x : nar)) (Nar (steps x : nar)).
    Lemma lift0 : stats0 = lift stats0. Proof. reflexivity. Qed.
    Lemma lift_over x : is_over mthr (lift x) = is_over (N := Co) thr x. Proof. reflexivity. Qed.
    Lemma lift_used x (v : nar) : used mthr mdep (lift x) (Nar v) = Nar (used (N := Co) thr dep x v).
    Proof.
      unfold used. change (goes_over mthr mdep (lift x) (Nar v)) with (goes_over (N := Co) thr dep x v).
      destruct (goes_over (N := Co) thr dep x v); reflexivity.
    Qed.
    Lemma lift_step x (v : nar) : stats_step mthr mdep (lift x) (Nar v) = lift (stats_step (N := Co) thr dep x v).
    Proof.
      unfold stats_step. rewrite lift_used. change (goes_over mthr mdep (lift x) (Nar v)) with (goes_over (N := Co) thr dep x v).
      rewrite lift_over. unfold lift. cbn [cumulative remainder steps].
      destruct (goes_over (N := Co) thr dep x v), (is_over (N := Co) thr x); reflexivity.
    Qed.
    Lemma lift_reset x : stats_reset mthr (lift x) = lift (stats_reset (N := Co) thr x).
    Proof.
      unfold stats_reset, switch. rewrite lift_over. destruct (is_over (N := Co) thr x); reflexivity.
    Qed.
    Lemma lift_run vs : forall x, stats_run mthr mdep (lift x) (map (option_map Nar) vs) = lift (stats_run (N := Co) thr dep x vs).
    Proof.
      induction vs as [|[v|] vs IH]; intros x; [reflexivity| |]; cbn [map option_map stats_run fold_left stats_event].
      - rewrite lift_step. apply IH.
      - rewrite lift_reset. apply IH.
    Qed.
    Lemma lift_wide prog (d : wid) : forall x (a : wid),
      value_run mthr mdep (Wid d : val Mix) (lift x) (Wid a) (marked prog) = Wid (wide_run (pw := pw) (ew := ew) (thr : val Co) dep d x a prog).
    Proof.
      induction prog as [|[[v u]|] prog IH]; intros x a; [reflexivity| |]; cbn [marked map option_map fst snd value_run wide_run].
      - rewrite lift_step. fold (marked prog). rewrite <- IH. f_equal. unfold value_step. rewrite lift_over.
        destruct (is_over (N := Co) thr x); [reflexivity|]. rewrite lift_used. reflexivity.
      - rewrite lift_reset. fold (marked prog). rewrite <- IH. f_equal. unfold value_reset. rewrite lift_over.
        destruct (is_over (N := Co) thr x); reflexivity.
    Qed.
    Lemma lift_narrow prog (d : nar) : forall x (a : nar),
      value_run mthr mdep (Nar d : val Mix) (lift x) (Nar a) (marked_narrow prog) = Nar (value_run (N := Co) thr dep d x a prog).
    Proof.
      induction prog as [|[[v u]|] prog IH]; intros x a; [reflexivity| |]; cbn [marked_narrow map option_map fst snd value_run].
      - rewrite lift_step. fold (marked_narrow prog). rewrite <- IH. f_equal. unfold value_step. rewrite lift_over.
        destruct (is_over (N := Co) thr x); [reflexivity|]. rewrite lift_used. reflexivity.
      - rewrite lift_reset. fold (marked_narrow prog). rewrite <- IH. f_equal. unfold value_reset. rewrite lift_over.
        destruct (is_over (N := Co) thr x); reflexivity.
    Qed.
    (** ** Shares *)
    Definition widened (x : nar * wid) : wid * wid := (f_conv pw ew (fst x), snd x).
    Lemma wide_run_shares d es : forall x (a : wid),
      wide_run (thr : val Co) dep d x a (map Some es) =
      fold_left (share_step pw ew) (map widened (wide_shares (thr : val Co) dep x es)) a.
    Proof.
      induction es as [|[v u] es IH]; intros x a; [reflexivity|]. cbn [map wide_run wide_shares]. rewrite IH.
      rewrite map_app, fold_left_app. destruct (is_over (N := Co) thr x); reflexivity.
    Qed.
    Lemma wide_shares_weights (es : list (nar * wid)) : forall x, map fst (wide_shares (thr : val Co) dep x es) = ScalarSpec.weights (N := Co) thr dep x (map fst es).
    Proof.
      induction es as [|[v u] es IH]; intros x; [reflexivity|]. cbn [map wide_shares ScalarSpec.weights fst]. rewrite map_app, IH.
      destruct (is_over (N := Co) thr x); reflexivity.
    Qed.
    Lemma wide_shares_incl (es : list (nar * wid)) : forall x y, In y (wide_shares (thr : val Co) dep x es) -> In (snd y) (map snd es).
    Proof.
      induction es as [|[v u] es IH]; intros x y; [easy|]. cbn [map wide_shares snd]. rewrite in_app_iff.
      intros [H|H]; [left|right; eauto]. destruct (is_over (N := Co) thr x); [easy|]. destruct H as [<-|[]]. reflexivity.
    Qed.
  End Program.

  (** ** Reading programs *)
  Lemma script_updates_of k (ok : val Mix -> Prop) i l j cs : forall g, Forall (updates_of k ok) cs ->
    let good (d : dict (tree (array Mix))) := forall u, update_at k l j d = Some u -> ok u in
    good (waiting g) -> Forall (fun o : option (val Mix * dict (tree (array Mix))) => match o with Some e => good (snd e) | None => True end) (lines g) ->
    good (waiting (fold_left (script_step i) cs g)) /\
    Forall (fun o : option (val Mix * dict (tree (array Mix))) => match o with Some e => good (snd e) | None => True end) (lines (fold_left (script_step i) cs g)).
  Proof.
    induction cs as [|c cs IH]; intros g F good Hw Hl; [auto|]. inversion F as [|? ? Fc F']; subst. cbn [fold_left].
    assert (Nil : good []) by (intros u; discriminate).
    apply IH; [exact F'| |]; destruct c as [name item|h|]; cbn [script_step].
    - cbn [waiting]. intros u Hu. unfold update_at in Hu. cbn [dget] in Hu.
      destruct (String.eqb k name) eqn:Ek; [|exact (Hw u Hu)]. apply String.eqb_eq in Ek.
      destruct (nth_error (leaves item) l) as [a|] eqn:Ea; [|discriminate].
      exact (Forall_nth _ _ _ _ (Forall_nth _ _ _ _ (Fc (eq_sym Ek)) Ea) Hu).
    - destruct (nth_error (a_data h) i); exact Nil.
    - exact Hw.
    - exact Hl.
    - destruct (nth_error (a_data h) i) as [v|]; cbn [lines]; [|exact Hl]. apply Forall_app. split; [exact Hl|]. constructor; [exact Hw|constructor].
    - cbn [lines]. apply Forall_app. split; [exact Hl|]. repeat constructor.
  Qed.
  Lemma program_values (okv oku : val Mix -> Prop) i k l j cs prog :
    Forall (halting_values okv) cs -> Forall (updates_of k oku) cs -> value_program i k l j cs prog ->
    Forall (fun o => match o with Some e => okv (fst e) /\ oku (snd e) | None => True end) prog.
  Proof.
    intros Fh Fu H. destruct (script_updates_of k oku i l j cs (mkScript [] []) Fu) as [_ L]; [intros u; discriminate|constructor|].
    pose proof (script_halting okv i cs (mkScript [] []) Fh ltac:(constructor)) as L2.
    fold (script_of i cs) in L, L2. unfold value_program in H. revert H L L2. generalize (lines (script_of i cs)).
    induction prog as [|o prog IH]; intros ls H L L2; [constructor|]. destruct ls as [|o' ls]; [discriminate|].
    cbn [map] in H. injection H as H1 H2. inversion L; inversion L2; subst. constructor; [|now apply (IH ls)].
    destruct o as [[v u]|]; [|exact I]. destruct o' as [[v' d]|]; [|discriminate]. cbn [option_map fst snd] in *. injection H1 as <- H1.
    split; [assumption|]. match goal with Q : forall u, _ = Some u -> oku u |- _ => exact (Q u H1) end.
  Qed.
  Lemma program_marked prog : Forall (fun o : option (val Mix * val Mix) => match o with Some e => narrow (fst e) /\ wide (snd e) | None => True end) prog ->
    exists p, prog = marked p.
  Proof.
    induction 1 as [|o prog Ho _ [p ->]]; [exists []; reflexivity|]. destruct o as [[v u]|].
    - destruct Ho as [[x Ex] [y Ey]]. cbn [fst snd] in *. subst. exists (Some (x, y) :: p). reflexivity.
    - exists (None :: p). reflexivity.
  Qed.
  Lemma program_marked_narrow prog : Forall (fun o : option (val Mix * val Mix) => match o with Some e => narrow (fst e) /\ narrow (snd e) | None => True end) prog ->
    exists p, prog = marked_narrow p.
  Proof.
    induction 1 as [|o prog Ho _ [p ->]]; [exists []; reflexivity|]. destruct o as [[v u]|].
    - destruct Ho as [[x Ex] [y Ey]]. cbn [fst snd] in *. subst. exists (Some (x, y) :: p). reflexivity.
    - exists (None :: p). reflexivity.
  Qed.
  Lemma stats_marked (prog : list (option (val Mix))) : Forall (fun o => match o with Some v => narrow v | None => True end) prog ->
    exists vs : list (option nar), prog = map (option_map Nar) vs.
  Proof.
    induction 1 as [|o prog Ho _ [p ->]]; [exists []; reflexivity|]. destruct o as [v|].
    - destruct Ho as [x ->]. exists (Some x :: p). reflexivity.
    - exists (None :: p). reflexivity.
  Qed.

  (** A controller of the core format with given settings. *)
  Definition settings (e d : pyfloat) : state Co :=
    let z := mkA (N := Co) DF32 (mkT [] [f_zero : nar]) in
    mkState (N := Co) (e : scl Co) z z z [] [] [] (d : scl Co) None.
End Facts.
