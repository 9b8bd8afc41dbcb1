(** * Comparing pytrees of numbers (C87): what [are_pytrees_equal] accepts as equal, in exact and in
    IEEE-754 arithmetic.

    Vocabulary: [comparable] (PropsUtils.v: tensors of equal shape in equal places) and
    CompareSpec.v. [B2R x] is the real number the finite float [x] stands for. *)
From Coq Require Import ZArith Reals Lia Lra Psatz.
From Coq Require Import QArith Qcanon.
From Flocq Require Import Core BinarySingleNaN.
From Verif Require Import Base PyTree Tensor Num FloatNum FloatSpec Utils Wf CompareSpec.
From Verif Require Import BaseFacts QcFacts FloatFacts FloatFacts2 FloatFacts4 CompareFacts.
From Verif Require Import PropsUtils.
Close Scope Qc_scope. Close Scope Q_scope. Close Scope R_scope. Close Scope Z_scope. Open Scope list_scope. Open Scope nat_scope.

(** ** C87 *)
(** Exact arithmetic: with the tolerance of [jnp.allclose], or exactly when [use_allclose] is off. *)
Theorem C87_exact (t1 t2 : tree (eleaf QcNum)) :
  structure t1 = structure t2 -> Forall2 comparable (leaves t1) (leaves t2) ->
  (exists b, are_pytrees_equal true t1 t2 = Ok b /\ (b = true <-> Forall2 (entries_related (N := QcNum) near) (leaves t1) (leaves t2))) /\
  (exists b, are_pytrees_equal false t1 t2 = Ok b /\ (b = true <-> Forall2 (entries_related (N := QcNum) eq) (leaves t1) (leaves t2))).
Proof.
  intros Es F. split.
  - destruct (C49_partial true t1 t2 Es F) as (b & E & H). exists b. split; [exact E|]. rewrite H. apply Forall2_iff.
    intros x y. apply related_iff. intros v w. apply close_near.
  - destruct (C49_partial false t1 t2 Es F) as (b & E & H). exists b. split; [exact E|]. rewrite H. apply Forall2_iff.
    intros x y. apply related_iff. intros v w. cbn [v_eqb QcNum]. unfold Qceqb. destruct (Qc_eq_dec v w); split; congruence.
Qed.
Print Assumptions C87_exact.

(** IEEE arithmetic: one decision per pair of entries, the same for all trees, that respects
    [float_decision]; with [use_allclose] off, IEEE equality (zeros of both signs are equal, NaN is not
    equal to itself). *)
Theorem C87_float (prec emax : Z) {Hp : Prec_gt_0 prec} {Hm : Prec_lt_emax prec emax} :
  (2 <= prec)%Z ->
  exists close : binary_float prec emax -> binary_float prec emax -> bool,
    (forall x y, float_decision prec emax x y (close x y)) /\
    forall t1 t2 : tree (eleaf (FloatNum prec emax)),
      structure t1 = structure t2 -> Forall2 comparable (leaves t1) (leaves t2) ->
      (exists b, are_pytrees_equal true t1 t2 = Ok b /\
         (b = true <-> Forall2 (entries_related (N := FloatNum prec emax) (fun x y => close x y = true)) (leaves t1) (leaves t2))) /\
      (exists b, are_pytrees_equal false t1 t2 = Ok b /\
         (b = true <-> Forall2 (entries_related (N := FloatNum prec emax) (fun x y : binary_float prec emax => Beqb x y = true)) (leaves t1) (leaves t2))).
Proof.
  intros H2. exists (f_close prec emax). split; [intros x y; now apply close_decision|]. intros t1 t2 Es F. split.
  - destruct (C49_partial true t1 t2 Es F) as (b & E & H). exists b. split; [exact E|]. rewrite H. apply Forall2_iff.
    intros x y. apply related_iff. intros v w. reflexivity.
  - destruct (C49_partial false t1 t2 Es F) as (b & E & H). exists b. split; [exact E|]. rewrite H. apply Forall2_iff.
    intros x y. apply related_iff. intros v w. reflexivity.
Qed.
Print Assumptions C87_float.
(** The two constants are 10^-8 and 10^-5 up to the unit roundoff u, that of Python floats (2^-53) and half the
    smallest positive number of the format (in float16, whose smallest number is about 6e-8, the first is zero). *)
Theorem C87_tolerances (prec emax : Z) {Hp : Prec_gt_0 prec} {Hm : Prec_lt_emax prec emax} :
  (2 <= prec)%Z ->
  let u := bpow radix2 (- prec) in let h := bpow radix2 (SpecFloat.emin prec emax - 1) in
  let w := (/ 9007199254740992)%R in
  (Rabs (atol prec emax - / 100000000) <= (u + w + u * w) * / 100000000 + h)%R /\
  (Rabs (rtol prec emax - / 100000) <= (u + w + u * w) * / 100000 + h)%R.
Proof. intros H2. split; [now apply atol_near|now apply rtol_near]. Qed.
Print Assumptions C87_tolerances.
(** A tree equals itself exactly when no entry is NaN, with and without tolerance. *)
Theorem C87_reflexive_unless_nan (prec emax : Z) {Hp : Prec_gt_0 prec} {Hm : Prec_lt_emax prec emax} (u : bool)
  (t : tree (eleaf (FloatNum prec emax))) :
  (2 <= prec)%Z -> Forall well_formed_leaf (leaves t) ->
  exists b, are_pytrees_equal u t t = Ok b /\ (b = true <-> Forall no_nan_leaf (leaves t)).
Proof.
  intros H2 W.
  assert (F : Forall2 comparable (leaves t) (leaves t)).
  { induction W as [|l ls Hl _ IH]; constructor; [|exact IH]. destruct l; cbn in *; auto. }
  destruct (C49_partial u t t eq_refl F) as (b & E & H). exists b. split; [exact E|]. rewrite H. clear E H F W b.
  assert (K : forall x : binary_float prec emax, (if u then f_close prec emax x x else Beqb x x) = true <-> is_nan x = false).
  { intros x. assert (Q : Beqb x x = true <-> is_nan x = false).
    { destruct (is_finite x) eqn:Fx.
      - rewrite Beqb_correct by assumption. rewrite Req_bool_true by reflexivity. rewrite (finite_not_nan prec emax x Fx). tauto.
      - destruct x as [[|]|[|]| |sg m e B]; try discriminate; cbn; split; congruence. }
    destruct u; [|exact Q]. destruct (close_decision prec emax H2 x x) as [D1 D2 D3 _ _].
    destruct (is_nan x) eqn:Nx; [rewrite D1 by auto; split; congruence|]. split; [reflexivity|]. intros _.
    destruct (is_finite x) eqn:Fx; [now apply D3|]. apply D2; auto. }
  split.
  - intros H. induction (leaves t) as [|l ls IH]; [constructor|]. inversion H as [|? ? ? ? Hl Hls]; subst. constructor; [|now apply IH].
    destruct l as [n a|ty c]; cbn in *; [|exact I]. destruct Hl as [_ Hl]. apply Forall_forall. intros v Hv.
    apply In_nth_error in Hv as [j Hj]. apply K. exact (Hl j v v Hj Hj).
  - intros H. induction H as [|l ls Hl _ IH]; constructor; [|exact IH]. destruct l as [n a|ty c]; cbn in *; [|auto]. split; [reflexivity|].
    intros j x y Hx Hy. assert (y = x) by congruence. subst y. apply K. rewrite Forall_forall in Hl. apply Hl. now apply nth_error_In with j.
Qed.
Print Assumptions C87_reflexive_unless_nan.
(** The tolerance is relative to the second argument: the comparison is not symmetric. For every
    positive v there is a tree that equals another one but not the other way round. *)
Theorem C87_not_symmetric (v : Qc) : (0 < v)%Qc ->
  let t (x : Qc) : tree (eleaf QcNum) := Leaf (EArr false (mkA (N := QcNum) DF32 (mkT [] [x]))) in
  let w := (v + (Q2Qc (1 # 100000000) + Q2Qc (1 # 100000) * v) + Q2Qc (1 # 20000000000) * v)%Qc in
  are_pytrees_equal true (t v) (t w) = Ok true /\ are_pytrees_equal true (t w) (t v) = Ok false.
Proof.
  intros Hv t w.
  assert (G : forall x y, are_pytrees_equal true (t x) (t y) = Ok (Qcclose x y)).
  { intros x y. unfold are_pytrees_equal, t, merge_pytrees. cbn. now rewrite !andb_true_r. }
  rewrite !G. split; f_equal.
  - apply close_near. unfold near, w. destruct (Qclt_le_dec _ 0) as [L|L]; revert L Hv; [split; revert L Hv; qc|split; revert L Hv; qc].
  - destruct (Qcclose w v) eqn:E; [|reflexivity]. exfalso. apply close_near in E. unfold near, w in E.
    destruct (Qclt_le_dec v 0) as [L|_]; [revert L Hv; qc|]. destruct E as [E _]. revert E Hv. qc.
Qed.
Print Assumptions C87_not_symmetric.

Definition x32 (a b : Z) : binary_float 24 128 := f_of_py (py_div a b).
Definition e87 (a b : binary_float 24 128) : tree (eleaf (FloatNum 24 128)) :=
  Node NTuple [Leaf (EArr false (mkA (N := FloatNum 24 128) DF32 (mkT [2] [a; b]))); Leaf (EObj 3 7)].
Example C87_case : let inf := B754_infinity false : binary_float 24 128 in let nan := B754_nan : binary_float 24 128 in
  (forall a b c d, structure (e87 a b) = structure (e87 c d) /\ Forall2 comparable (leaves (e87 a b)) (leaves (e87 c d)) /\
     Forall well_formed_leaf (leaves (e87 a b))) /\
  are_pytrees_equal true (e87 (x32 1 3) inf) (e87 (x32 100001 300000) inf) = Ok true /\
  are_pytrees_equal false (e87 (x32 1 3) inf) (e87 (x32 100001 300000) inf) = Ok false /\
  are_pytrees_equal true (e87 (x32 1 3) inf) (e87 (x32 100002 300000) inf) = Ok false /\
  are_pytrees_equal true (e87 inf (x32 1 1)) (e87 (x32 1 1) (x32 1 1)) = Ok false /\
  are_pytrees_equal true (e87 (x32 1 3) nan) (e87 (x32 1 3) nan) = Ok false /\
  are_pytrees_equal false (e87 (x32 0 1) inf) (e87 (B754_zero true) inf) = Ok true.
Proof.
  split; [|repeat split; vm_compute; reflexivity]. intros a b c d. split; [reflexivity|].
  split; repeat constructor.
Qed.
Example C87_near_case : near (Q2Qc (1 # 3)) (Q2Qc (100001 # 300000)) /\ ~ near (Q2Qc (1 # 3)) (Q2Qc (100002 # 300000)).
Proof. rewrite <- !close_near. split; [vm_compute; reflexivity|]. vm_compute. discriminate. Qed.
