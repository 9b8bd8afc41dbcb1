(** * C100: builder calls about different accumulators may be made in any order.

    Vocabulary: OrderSpec.v, BuilderSpec.v (sequences of builder calls), StateSpec.v ([same_state]: equal fields, equal
    dictionaries up to the order of their items), History.v. For every arithmetic. *)
From Coq Require Import QArith Qcanon Lia.
From Verif Require Import Base PyTree Tensor Num Utils States Controller Builder Layers Wf Spec History BuilderSpec StateSpec LayerSpec OrderSpec.
From Verif Require Import BaseFacts HistoryFacts BuilderFacts StateFacts LayerFacts LayerFacts4 Samples.
Close Scope Qc_scope. Close Scope Q_scope. Open Scope string_scope. Open Scope list_scope. Open Scope nat_scope.

Section Order.
  Context {N : numsys}.
  Notation st := (state N).
  (** The states agree on everything but the dictionaries, and on the entries [k]. *)
  Record agree_at (k : string) (s s' : st) : Prop := {
    aa_eps : epsilon s = epsilon s'; aa_i : iterations s = iterations s'; aa_r : residuals s = residuals s';
    aa_p : probabilities s = probabilities s'; aa_dep : depression_constant s = depression_constant s'; aa_mode : error_mode s = error_mode s';
    aa_def : dget k (defaults s) = dget k (defaults s'); aa_acc : dget k (accumulators s) = dget k (accumulators s');
    aa_upd : dget k (updates s) = dget k (updates s') }.
  Lemma agree_refl k s : agree_at k s s. Proof. split; reflexivity. Qed.
  Lemma agree_sym k s s' : agree_at k s s' -> agree_at k s' s. Proof. intros []. split; congruence. Qed.
  Lemma agree_trans k a b c : agree_at k a b -> agree_at k b c -> agree_at k a c. Proof. intros [] []. split; congruence. Qed.
  Lemma dmem_dget {V} k (d d' : dict V) : dget k d = dget k d' -> dmem k d = dmem k d'.
  Proof. unfold dmem. now intros ->. Qed.

  Definition outcome (k : string) (r r' : res st) : Prop :=
    match r, r' with Ok s, Ok s' => agree_at k s s' /\ proper s /\ proper s' | Err e, Err e' => e = e' | _, _ => False end.
  Lemma define_outcome k (s s' : st) t : proper s -> proper s' -> agree_at k s s' -> outcome k (define s k t) (define s' k t).
  Proof.
    intros (P1 & P2 & P3) (Q1 & Q2 & Q3) A. unfold define, validate_definition. rewrite <- (aa_p _ _ _ A).
    destruct (mapM _ (leaves t)) as [x|e]; cbn [bind]; [|reflexivity]. unfold outcome. cbn [replace bind r_depression_constant r_error_mode].
    split; [|split; unfold proper; cbn; (split; [|split]); apply NoDup_dset; assumption]. destruct A. split; cbn; auto; now rewrite !dget_dset_eq.
  Qed.
  Lemma call_outcome (s s' : st) c : proper s -> proper s' -> agree_at (bname c) s s' -> outcome (bname c) (apply_bcall s c) (apply_bcall s' c).
  Proof.
    intros P Q A. destruct c as [n t|n sh d f|n]; cbn [apply_bcall bname] in *.
    - now apply define_outcome.
    - unfold define_by_shape. destruct (mapM _ _) as [x|e]; cbn [bind]; [|reflexivity]. destruct (unflatten _ x) as [t|e]; cbn [bind]; [|reflexivity]. now apply define_outcome.
    - unfold delete_definition, dpop. rewrite (dmem_dget n _ _ (aa_def _ _ _ A)), (dmem_dget n _ _ (aa_acc _ _ _ A)), (dmem_dget n _ _ (aa_upd _ _ _ A)).
      destruct (dmem n (defaults s')); cbn [bind]; [|reflexivity]. destruct (dmem n (accumulators s')); cbn [bind]; [|reflexivity].
      destruct (dmem n (updates s')); cbn [bind]; [|reflexivity]. unfold outcome. cbn [replace bind r_depression_constant r_error_mode].
      destruct P as (P1 & P2 & P3), Q as (Q1 & Q2 & Q3). split; [|split; unfold proper; cbn; (split; [|split]); apply NoDup_ddel; assumption].
      destruct A. split; cbn; auto; rewrite !dget_ddel by assumption; now rewrite String.eqb_refl.
  Qed.
  Lemma call_proper (s : st) c : proper s -> proper (bafter s c).
  Proof.
    intros P. unfold bafter. pose proof (call_outcome s s c P P (agree_refl _ _)) as X. destruct (apply_bcall s c); cbn in X; tauto.
  Qed.
  Lemma call_elsewhere (s : st) c k : proper s -> bname c <> k -> agree_at k (bafter s c) s.
  Proof.
    intros (P1 & P2 & P3) Ne. unfold bafter. destruct (apply_bcall s c) as [s'|e] eqn:E; [|apply agree_refl].
    assert (Cases : (exists t, s' = defined s (bname c) t) \/ s' = removed s (bname c)).
    { destruct c as [n t|n sh d f|n]; cbn [apply_bcall bname] in *.
      - left. apply define_ok_iff in E as [_ ->]. eauto.
      - left. apply define_by_shape_ok_iff in E as (t & _ & E). apply define_ok_iff in E as [_ ->]. eauto.
      - right. now apply delete_ok_iff in E as (_ & _ & _ & ->). }
    destruct Cases as [[t ->]| ->]; split; cbn; auto;
      try (rewrite dget_dset_neq by congruence; reflexivity); rewrite dget_ddel by assumption; destruct (String.eqb_spec k (bname c)); congruence.
  Qed.
  Lemma brun_cons (s : st) c cs : brun s (c :: cs) = brun (bafter s c) cs. Proof. reflexivity. Qed.
  Lemma brun_proper (s : st) cs : proper s -> proper (brun s cs).
  Proof. revert s. induction cs as [|c cs IH]; intros s P; [exact P|]. rewrite brun_cons. apply IH. now apply call_proper. Qed.
  (** For the entries [k] only the calls about [k] count. *)
  Lemma projection k cs : forall s s' : st, proper s -> proper s' -> agree_at k s s' ->
    agree_at k (brun s cs) (brun s' (about k cs)) /\ reports_about k (reports s cs) = reports s' (about k cs).
  Proof.
    induction cs as [|c cs IH]; intros s s' P P' A; [split; [exact A|reflexivity]|].
    rewrite brun_cons. unfold about in *. unfold reports_about in *. cbn [filter reports fst]. destruct (String.eqb_spec (bname c) k) as [E|Ne].
    - rewrite brun_cons. cbn [reports]. subst k. pose proof (call_outcome s s' c P P' A) as X.
      assert (Q := call_proper s c P). assert (Q' := call_proper s' c P'). unfold bafter in *.
      destruct (apply_bcall s c) as [t|e] eqn:E1, (apply_bcall s' c) as [t'|e'] eqn:E2; cbn in X; try contradiction.
      + destruct X as (X & _). destruct (IH t t' Q Q' X) as [I1 I2]. split; [exact I1|]. now rewrite I2.
      + subst e'. destruct (IH s s' Q Q' A) as [I1 I2]. split; [exact I1|]. now rewrite I2.
    - apply IH; [now apply call_proper|exact P'|]. eapply agree_trans; [|exact A]. now apply call_elsewhere.
  Qed.
  Lemma orders_agree (s : st) cs cs' k : proper s -> about k cs = about k cs' ->
    agree_at k (brun s cs) (brun s cs') /\ reports_about k (reports s cs) = reports_about k (reports s cs').
  Proof.
    intros P E. destruct (projection k cs s s P P (agree_refl k s)) as [A1 R1]. destruct (projection k cs' s s P P (agree_refl k s)) as [A2 R2].
    rewrite E in *. split; [eapply agree_trans; [exact A1|now apply agree_sym]|congruence].
  Qed.
  Lemma returned_same (s s' : st) cs : linked s s' -> returned s cs = returned s' cs.
  Proof.
    revert s s'. induction cs as [|c cs IH]; intros s s' L; [reflexivity|]. cbn [returned]. pose proof (call_same s s' c L) as X.
    destruct (apply_call s c), (apply_call s' c); cbn in X; try contradiction; [f_equal|]; apply IH; [exact X|exact L].
  Qed.
End Order.

(** Two sequences of builder calls with, for every name, the same calls about that name in the same order, make the same controller, and
    every call raises the same exception or none in both. *)
Theorem C100_any_order {N} (s : state N) cs cs' : proper s -> (forall k, about k cs = about k cs') ->
  same_state (brun s cs) (brun s cs') /\ forall k, reports_about k (reports s cs) = reports_about k (reports s cs').
Proof.
  intros P E. split; [|intros k; now apply orders_agree].
  assert (A : forall k, agree_at k (brun s cs) (brun s cs')) by (intros k; now apply orders_agree).
  destruct (A "") as []. split; auto; intros k; apply (A k).
Qed.
Print Assumptions C100_any_order.
(** The accumulator [k] is what the calls about [k] alone make of it: the other definitions, also failing ones, do not matter. *)
Theorem C100_definitions_are_independent {N} (s : state N) cs k : proper s ->
  dget k (accumulators (brun s cs)) = dget k (accumulators (brun s (about k cs))) /\
  dget k (defaults (brun s cs)) = dget k (defaults (brun s (about k cs))) /\
  dget k (updates (brun s cs)) = dget k (updates (brun s (about k cs))) /\
  reports_about k (reports s cs) = reports s (about k cs).
Proof. intros P. destruct (projection k cs s s P P (agree_refl k s)) as [[] R]. auto. Qed.
Print Assumptions C100_definitions_are_independent.
(** The last definition of a name counts, whatever was defined or deleted before. *)
Theorem C100_last_definition_wins {N} (s : state N) cs1 cs2 k t : proper s -> about k cs2 = [] ->
  is_ok (apply_bcall (brun s cs1) (BDirect k t)) = true ->
  dget k (accumulators (brun s (cs1 ++ BDirect k t :: cs2))) = Some t /\ dget k (defaults (brun s (cs1 ++ BDirect k t :: cs2))) = Some t /\
  dget k (updates (brun s (cs1 ++ BDirect k t :: cs2))) = Some tnone.
Proof.
  intros P E Ok1. assert (R : brun s (cs1 ++ BDirect k t :: cs2) = brun (bafter (brun s cs1) (BDirect k t)) cs2) by (unfold brun; now rewrite fold_left_app).
  rewrite R. assert (P1 := brun_proper s cs1 P). destruct (projection k cs2 _ _ (call_proper _ (BDirect k t) P1) (call_proper _ (BDirect k t) P1) (agree_refl k _)) as [A _].
  rewrite E in A. change (brun ?x []) with x in A. destruct A as [_ _ _ _ _ _ A1 A2 A3]. rewrite A1, A2, A3. unfold bafter.
  destruct (apply_bcall (brun s cs1) (BDirect k t)) as [s'|e] eqn:E1; [|discriminate]. cbn [apply_bcall] in E1. apply define_ok_iff in E1 as [_ ->].
  cbn. now rewrite !dget_dset_eq.
Qed.
Print Assumptions C100_last_definition_wins.
(** Controllers built in different orders behave alike: the same calls return, with the same results. *)
Theorem C100_same_behaviour {N} (s : state N) cs cs' calls : proper s -> (forall k, about k cs = about k cs') ->
  returned (brun s cs) calls = returned (brun s cs') calls /\ same_state (run (brun s cs) calls) (run (brun s cs') calls).
Proof.
  intros P E. assert (L : linked (brun s cs) (brun s cs')).
  { split; [now apply brun_proper|]. split; [now apply brun_proper|]. now apply C100_any_order. }
  split; [now apply returned_same|]. apply (run_same _ _ calls L).
Qed.
Print Assumptions C100_same_behaviour.

Lemma all_halted_linked {N} (c c' : state N) : same_state c c' -> all_halted c -> all_halted c'.
Proof. intros S H. unfold all_halted. now rewrite <- (ss_p _ _ S), <- (ss_eps _ _ S). Qed.
(** Layers that build their controllers in different orders compute the same. *)
Theorem C100_same_execution {N} (s : state N) cs cs' next upd halt lazy lazy' init dep bound check check' c u c' u' : proper s -> (forall k, about k cs = about k cs') ->
  execute_act (simple_layer (brun s cs) next upd halt lazy) init dep bound check = Ok (c, u) ->
  execute_act (simple_layer (brun s cs') next upd halt lazy') init dep bound check' = Ok (c', u') ->
  u = u' /\ same_state c c'.
Proof.
  intros P E X1 X2. assert (Q := brun_proper s cs P). assert (Q' := brun_proper s cs' P).
  assert (S : forall m, same_state (run (brun s cs) (loop_calls next upd halt m init)) (run (brun s cs') (loop_calls next upd halt m init))) by (intros m; now apply C100_same_behaviour).
  destruct (execute_history _ _ _ _ _ _ _ _ _ _ _ Q X1) as (n1 & -> & B1 & S1 & _ & C1 & M1).
  destruct (execute_history _ _ _ _ _ _ _ _ _ _ _ Q' X2) as (n2 & -> & B2 & S2 & _ & C2 & M2).
  assert (n1 = n2) as <-.
  { destruct (Nat.lt_trichotomy n1 n2) as [L|[L|L]]; [exfalso|exact L|exfalso].
    - destruct C1 as [C1|C1]; [|lia]. apply (M2 n1 L). eapply all_halted_linked; [apply S|]. eapply all_halted_linked; [exact S1|exact C1].
    - destruct C2 as [C2|C2]; [|lia]. apply (M1 n2 L). eapply all_halted_linked; [apply same_state_sym, S|]. eapply all_halted_linked; [exact S2|exact C2]. }
  split; [reflexivity|]. eapply same_state_trans; [exact S1|]. eapply same_state_trans; [apply S|]. now apply same_state_sym.
Qed.
Print Assumptions C100_same_execution.

(** ** Case: two accumulators, one redefined, failing calls; interleaved in two ways. *)
Definition row (a b : Qc) : tree (array QcNum) := Leaf (mkA (N := QcNum) DF32 (mkT [2] [a; b])).
Definition bad_row : tree (array QcNum) := Leaf (mkA (N := QcNum) DF32 (mkT [3] [q 1 1; q 1 1; q 1 1])).
Definition calls_x : list (bcall QcNum) := [BDelete "x"; BDirect "x" (row (q 1 1) (q 2 1)); BDirect "x" bad_row; BDirect "x" (row (q 3 1) (q 4 1))].
Definition calls_y : list (bcall QcNum) := [BShape (N := QcNum) "y" (int_list [2; 3]%Z) DF32 (q 0 1); BDelete "y"; BDirect "y" (row (q 5 1) (q 6 1))].
Definition one_way : list (bcall QcNum) := calls_x ++ calls_y.
Definition other_way : list (bcall QcNum) :=
  [nth 0 calls_y (BDelete ""); nth 1 calls_y (BDelete ""); nth 0 calls_x (BDelete ""); nth 2 calls_y (BDelete ""); nth 1 calls_x (BDelete ""); nth 2 calls_x (BDelete ""); nth 3 calls_x (BDelete "")].
Example C100_case : proper (core2 (q 1 1)) /\ (forall k, about k one_way = about k other_way) /\ brun (core2 (q 1 1)) one_way <> brun (core2 (q 1 1)) other_way /\
  map snd (reports (core2 (q 1 1)) one_way) = [Some KeyError; None; Some ValueError; None; None; None; None] /\
  map snd (reports (core2 (q 1 1)) other_way) = [None; None; Some KeyError; None; None; Some ValueError; None] /\
  dkeys (accumulators (brun (core2 (q 1 1)) one_way)) = ["x"; "y"] /\ dkeys (accumulators (brun (core2 (q 1 1)) other_way)) = ["y"; "x"].
Proof.
  split; [repeat split; constructor|]. split.
  { intros k. unfold about, one_way, other_way, calls_x, calls_y. cbn [nth filter app bname].
    destruct (String.eqb_spec "x" k) as [<-|]; [reflexivity|]. destruct (String.eqb "y" k); reflexivity. }
  split; [intros E; apply (f_equal (fun s => dkeys (accumulators s))) in E; vm_compute in E; discriminate|].
  repeat split; vm_compute; reflexivity.
Qed.
