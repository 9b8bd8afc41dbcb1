(** * C105: arrays have the requested dtype. Vocabulary: BuilderSpec.v, OrderSpec.v ([bname], [about]), History.v. *)
From Coq Require Import QArith Qcanon Lia.
From Verif Require Import Base PyTree Tensor Num Utils States Controller Builder Wf Spec History BuilderSpec StateSpec OrderSpec Precision.
From Verif Require Import BaseFacts HistoryFacts BuilderFacts StateFacts Samples PropsController PropsBuilder PropsOrder.
Close Scope Qc_scope. Close Scope Q_scope. Open Scope string_scope. Open Scope list_scope. Open Scope nat_scope.

(** Every array of the controller that the library made or keeps: the statistics, the defaults and the accumulators. *)
Definition every_dtype {N} (P : dtype -> Prop) (s : state N) : Prop :=
  P (a_dt (probabilities s)) /\ P (a_dt (residuals s)) /\ P (a_dt (iterations s)) /\
  (forall k t, dget k (defaults s) = Some t -> Forall (fun a => P (a_dt a)) (leaves t)) /\
  (forall k t, dget k (accumulators s) = Some t -> Forall (fun a => P (a_dt a)) (leaves t)).
Definition direct_dtypes {N} (P : dtype -> Prop) (c : bcall N) : Prop :=
  match c with BDirect _ t => Forall (fun a => P (a_dt a)) (leaves t) | _ => True end.

Section Prec.
  Context {N : numsys}.
  Notation st := (state N).
  Definition xcall (x64 : bool) (c : bcall N) : bcall N := match c with BShape n sh d f => BShape n sh (available x64 d) f | _ => c end.
  Lemma xrun_brun x64 (s : st) cs : xrun x64 s cs = brun s (map (xcall x64) cs).
  Proof.
    revert s. induction cs as [|c cs IH]; intros s; [reflexivity|]. cbn [xrun fold_left map brun]. replace (xafter x64 s c) with (bafter s (xcall x64 c)); [apply IH|].
    unfold xafter, bafter. now destruct c.
  Qed.
  Lemma xcall_wf x64 cs : Forall bcall_wf cs -> Forall bcall_wf (map (xcall x64) cs).
  Proof. intros F. apply Forall_map. eapply Forall_impl; [|exact F]. intros [] H; exact H. Qed.
  Lemma xcall_about x64 k cs : about k (map (xcall x64) cs) = map (xcall x64) (about k cs).
  Proof.
    induction cs as [|c cs IH]; [reflexivity|]. unfold about in *. cbn [map filter]. replace (bname (xcall x64 c)) with (bname c) by now destruct c.
    destruct (String.eqb _ _); cbn [map]; now rewrite IH.
  Qed.
  Lemma new_x x64 m b cd eps dep (s : st) : new_builder_x x64 (Some m) b cd eps dep = Ok s ->
    new_builder_with (Some m) b (option_map (available x64) cd) eps dep = Ok s.
  Proof. unfold new_builder_x. destruct (guard _ _); cbn [bind]; [auto|discriminate]. Qed.

  Lemma define_dtypes P (s : st) n t : every_dtype P s -> Forall (fun a => P (a_dt a)) (leaves t) -> every_dtype P (defined s n t).
  Proof.
    intros (A & B & C & D & E) F. unfold every_dtype. cbn [defined probabilities residuals iterations defaults accumulators].
    repeat (split; [assumption|]).
    split; intros k u; (destruct (String.eqb_spec k n) as [->|Ne]; [rewrite dget_dset_eq; intros [= <-]; exact F|rewrite dget_dset_neq by congruence; eauto]).
  Qed.
  Lemma bafter_dtypes (P : dtype -> Prop) x64 (s : st) c : proper s -> every_dtype P s -> direct_dtypes P c -> (forall d, P (available x64 d)) ->
    every_dtype P (bafter s (xcall x64 c)).
  Proof.
    intros (P1 & P2 & P3) E D A. unfold bafter. destruct (apply_bcall s (xcall x64 c)) as [s'|e] eqn:R; [|exact E].
    destruct c as [n t|n sh d f|n]; cbn [apply_bcall xcall direct_dtypes] in *.
    - apply define_ok_iff in R as [_ ->]. now apply define_dtypes.
    - apply define_by_shape_ok_iff in R as (t & Dt & R). apply define_ok_iff in R as [_ ->]. apply define_dtypes; [exact E|].
      apply describes_awf in Dt. eapply Forall_impl; [|exact Dt]. cbn. intros a (_ & -> & _). apply A.
    - apply delete_ok_iff in R as (_ & _ & _ & ->). destruct E as (X & Y & Z & U & V). unfold every_dtype. cbn [removed probabilities residuals iterations defaults accumulators].
      repeat (split; [assumption|]). split; intros k u; rewrite dget_ddel by assumption; (destruct (String.eqb k n); [discriminate|eauto]).
  Qed.
  Lemma brun_dtypes (P : dtype -> Prop) x64 cs : (forall d, P (available x64 d)) -> forall s : st, proper s -> every_dtype P s -> Forall (direct_dtypes P) cs ->
    every_dtype P (brun s (map (xcall x64) cs)).
  Proof.
    intros A. induction cs as [|c cs IH]; intros s Pr E F; [exact E|]. inversion F; subst. cbn [map]. rewrite brun_cons.
    apply IH; [now apply call_proper|now apply bafter_dtypes|assumption].
  Qed.
  Lemma same_dtypes (P : dtype -> Prop) (l l' : list (array N)) : map a_dt l' = map a_dt l -> Forall (fun a => P (a_dt a)) l -> Forall (fun a => P (a_dt a)) l'.
  Proof.
    intros E F. revert l' E. induction F as [|x l Hx _ IH]; intros [|y l'] E; try discriminate; constructor; injection E as E1 E2; [now rewrite E1|now apply IH].
  Qed.
  Lemma sig_dt (a b : array N) : sig a = sig b -> a_dt a = a_dt b. Proof. unfold sig. congruence. Qed.
  Lemma dget_in {V} k (d : dict V) v : dget k d = Some v -> In k (dkeys d).
  Proof. intros H. destruct (in_dec string_dec k (dkeys d)) as [I|I]; [exact I|]. exfalso. apply dget_none in I. congruence. Qed.
  Lemma run_dtypes (P : dtype -> Prop) (s : st) calls : wf s -> wf_pending s -> Forall call_wf calls -> every_dtype P s -> every_dtype P (run s calls).
  Proof.
    intros W Wp F (A & B & C & D & E). destruct (C11_structure_is_stable s calls W Wp F) as (_ & _ & _ & X1 & X2 & X3 & X4 & X5 & _ & X6 & _).
    unfold every_dtype. rewrite X1, (sig_dt _ _ X2), (sig_dt _ _ X3), (sig_dt _ _ X4). repeat (split; [assumption|]).
    intros k t' H. pose proof (dget_in _ _ _ H) as I. rewrite X5 in I. destruct (dget k (accumulators s)) as [t|] eqn:G.
    - destruct (X6 k t t' G H) as (_ & _ & M). eapply same_dtypes; [exact M|]. eapply E, G.
    - apply dget_none in G. contradiction.
  Qed.
End Prec.

(** What holds in both modes. A builder is made with core dtype [cd] (float32 if none is given); after any builder calls, [k] is defined by shape
    with dtype [d]; after further builder calls, none about [k], and any history of the controller, the statistics have the dtype [cd] and all
    arrays of [k] the dtype [d], except that without 64-bit types float64 has become float32. *)
Theorem C105_partial {N} x64 m b cd (eps dep : scl N) s0 cs1 k sh d fill s1 cs2 calls :
  new_builder_x x64 (Some m) b cd eps dep = Ok s0 -> Forall bcall_wf cs1 -> Forall bcall_wf cs2 ->
  apply_xcall x64 (xrun x64 s0 cs1) (BShape k sh d fill) = Ok s1 -> about k cs2 = [] -> Forall call_wf calls ->
  let got := fun d => match d, x64 with DF64, false => DF32 | _, _ => d end in
  let s := run (build (xrun x64 s1 cs2)) calls in
  (a_dt (probabilities s) = got (match cd with Some c => c | None => DF32 end) /\ a_dt (residuals s) = a_dt (probabilities s) /\
   a_dt (iterations s) = a_dt (probabilities s)) /\
  (exists t, dget k (accumulators s) = Some t /\ Forall (fun a => a_dt a = got d) (leaves t)) /\
  (exists t, dget k (defaults s) = Some t /\ Forall (fun a => a_dt a = got d) (leaves t)).
Proof.
  intros H0 F1 F2 H1 Ab F got s. apply new_x in H0. rewrite xrun_brun in *.
  assert (G : forall d, got d = available x64 d) by (intros []; destruct x64; reflexivity).
  set (c := BShape k sh (available x64 d) fill : bcall N).
  assert (S1 : s1 = bafter (brun s0 (map (xcall x64) cs1)) c) by (unfold bafter; cbn [apply_bcall c]; cbn [apply_xcall] in H1; now rewrite H1).
  set (all := map (xcall x64) cs1 ++ c :: map (xcall x64) cs2).
  assert (R : brun s1 (map (xcall x64) cs2) = brun s0 all) by (unfold all, brun; rewrite fold_left_app; cbn [fold_left]; now rewrite S1).
  assert (Wa : Forall bcall_wf all) by (apply Forall_app; split; [now apply xcall_wf|constructor; [exact I|now apply xcall_wf]]).
  destruct (C27_builders_make_well_formed_controllers _ _ _ _ _ _ all H0 Wa) as (W & _ & Wp & _).
  unfold s in *. rewrite xrun_brun, R in *. clear s.
  assert (Core : a_dt (probabilities (brun s0 all)) = got (match cd with Some c => c | None => DF32 end) /\ a_dt (residuals (brun s0 all)) = a_dt (probabilities (brun s0 all)) /\
     a_dt (iterations (brun s0 all)) = a_dt (probabilities (brun s0 all))).
  { assert (E : forall cs (s : state N), probabilities (brun s cs) = probabilities s /\ residuals (brun s cs) = residuals s /\ iterations (brun s cs) = iterations s).
    { induction cs as [|x cs IH]; intros s; [auto|]. rewrite brun_cons. destruct (IH (bafter s x)) as (-> & -> & ->). unfold bafter.
      destruct (apply_bcall s x) as [s'|e] eqn:Q; [|auto]. destruct x as [n t|n h e f|n]; cbn [apply_bcall] in Q.
      - apply define_ok_iff in Q as [_ ->]. auto.
      - apply define_by_shape_ok_iff in Q as (t & _ & Q). apply define_ok_iff in Q as [_ ->]. auto.
      - apply delete_ok_iff in Q as (_ & _ & _ & ->). auto. }
    destruct (E all s0) as (-> & -> & ->). apply new_builder_with_ok in H0 as (_ & _ & _ & ->). cbn. split; [|auto]. rewrite G. now destruct cd. }
  assert (Pr : proper s1).
  { rewrite S1. apply call_proper, brun_proper. apply new_builder_with_ok in H0 as (_ & _ & _ & ->). repeat split; constructor. }
  assert (T : exists t, dget k (accumulators (brun s0 all)) = Some t /\ dget k (defaults (brun s0 all)) = Some t /\ Forall (fun a => a_dt a = got d) (leaves t)).
  { rewrite <- R. destruct (projection k (map (xcall x64) cs2) s1 s1 Pr Pr (agree_refl k s1)) as [A _]. rewrite xcall_about, Ab in A. cbn [map] in A.
    change (brun s1 []) with s1 in A. rewrite (aa_acc _ _ _ A), (aa_def _ _ _ A). cbn [apply_xcall] in H1.
    apply define_by_shape_ok_iff in H1 as (t & Dt & H1). apply define_ok_iff in H1 as [_ ->]. exists t. cbn. rewrite !dget_dset_eq. repeat split.
    apply describes_awf in Dt. eapply Forall_impl; [|exact Dt]. cbn. intros a (_ & -> & _). now rewrite G. }
  destruct T as (t & Ta & Td & Ft). unfold build in *.
  destruct (C11_structure_is_stable _ calls W Wp F) as (_ & _ & _ & X1 & X2 & X3 & X4 & X5 & _ & X6 & _).
  rewrite (sig_dt _ _ X2), (sig_dt _ _ X3), (sig_dt _ _ X4), X1. split; [exact Core|]. split; [|eauto].
  destruct (dget k (accumulators (run (brun s0 all) calls))) as [t'|] eqn:Q.
  - exists t'. split; [reflexivity|]. destruct (X6 k t t' Ta Q) as (_ & _ & M). now apply (same_dtypes (fun x => x = got d) _ _ M).
  - exfalso. apply dget_none in Q. apply Q. rewrite X5. eapply dget_in, Ta.
Qed.
Print Assumptions C105_partial.
(** With 64-bit types every requested dtype is honoured. *)
Theorem C105_with_x64 {N} m b cd (eps dep : scl N) (s : state N) cs : new_builder_x true m b cd eps dep = new_builder_with m b cd eps dep /\ xrun true s cs = brun s cs.
Proof.
  assert (A : forall d, available true d = d) by (intros []; reflexivity). split.
  - unfold new_builder_x, new_builder_with. destruct cd as [d|]; cbn [option_map]; rewrite ?A; [|reflexivity]. now destruct (is_floating d).
  - rewrite xrun_brun. f_equal. rewrite <- map_id. apply map_ext. intros []; cbn [xcall]; now rewrite ?A.
Qed.
Print Assumptions C105_with_x64.
(** Without them, no array that the library makes is ever float64, whatever is requested. *)
Theorem C105_no_float64 {N} m b cd (eps dep : scl N) s0 cs calls :
  new_builder_x false (Some m) b cd eps dep = Ok s0 -> Forall bcall_wf cs -> Forall (direct_dtypes (fun d => d <> DF64)) cs -> Forall call_wf calls ->
  every_dtype (fun d => d <> DF64) (run (build (xrun false s0 cs)) calls).
Proof.
  intros H0 Fc D F. apply new_x in H0. rewrite xrun_brun. unfold build.
  destruct (C27_builders_make_well_formed_controllers _ _ _ _ _ _ _ H0 (xcall_wf false cs Fc)) as (W & _ & Wp & _).
  apply run_dtypes; auto. assert (A : forall d, available false d <> DF64) by (intros []; discriminate).
  apply new_builder_with_ok in H0 as (_ & _ & _ & ->). apply brun_dtypes; [exact A|repeat split; constructor| |exact D].
  assert (C : core (option_map (available false) cd) <> DF64) by (destruct cd; cbn; [apply A|discriminate]).
  repeat split; auto; discriminate.
Qed.
Print Assumptions C105_no_float64.

(** The full claim is false in JAX's default mode. *)
Definition wide_x : bcall QcNum := BShape (N := QcNum) "x" (int_list [2; 1]%Z) DF64 (q 1 2).
Definition wide_calls : list (call QcNum) := [CCache (N := QcNum) "x" (Leaf (farr DF32 [2; 1] [q 1 1; q 2 1])); CIter (hp (q 1 2) (q 1 1))].
Definition dtypes_of (s : state QcNum) : list dtype := match dget "x" (accumulators s) with Some t => map a_dt (leaves t) | None => [] end.
Definition session (x64 : bool) : res (state QcNum) :=
  s0 <- new_builder_x (N := QcNum) x64 (Some (Some "standard")) (BInt 2) (Some DF64) (q 1 10) (q 1 1) ;;
  s1 <- apply_xcall x64 s0 wide_x ;; Ok (run (build s1) wide_calls).
Theorem C105_refuted :
  (s <- session false ;; Ok ((a_dt (probabilities s), dtypes_of s))) = Ok (DF32, [DF32]) /\
  (s <- session true ;; Ok ((a_dt (probabilities s), dtypes_of s))) = Ok (DF64, [DF64]).
Proof. split; vm_compute; reflexivity. Qed.
Print Assumptions C105_refuted.
Example C105_case : is_ok (new_builder_x (N := QcNum) false (Some (Some "standard")) (BInt 2) (Some DF64) (q 1 10) (q 1 1)) = true /\
  is_ok (session false) = true /\ about "x" [BDirect "y" (row (q 1 1) (q 1 1)); BDelete "z"] = [] /\ Forall call_wf wide_calls /\
  (s <- session false ;; Ok (map (fun v : Qc => this v) (data (a_ten (probabilities s))))) = Ok [1 # 2; 1]%Q.
Proof.
  split; [vm_compute; reflexivity|]. split; [vm_compute; reflexivity|]. split; [reflexivity|].
  split; [repeat constructor|]. vm_compute. reflexivity.
Qed.
