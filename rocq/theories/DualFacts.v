(** * Proofs about derivatives of numbers (for PropsDual.v) *)
From Coq Require Import QArith Qcanon Lqa Lia.
From Verif Require Import Base PyTree Tensor Num States Controller Wf Spec History ScalarSpec Jit Dual DualSpec.
From Verif Require Import BaseFacts QcFacts.
Close Scope Q_scope. Open Scope Qc_scope.

Ltac qring := unfold Qcminus, Qcdiv; ring.

Lemma Qcmult_pos x y : 0 < x -> 0 < y -> 0 < x * y. Proof. qcn. Qed.

(** ** Near zero *)
Lemma near_all (P : Qc -> Prop) : (forall t, P t) -> near P.
Proof. intros H. exists 1. split; [reflexivity|auto]. Qed.
Lemma near_mp (P Q : Qc -> Prop) : (forall t, P t -> Q t) -> near P -> near Q.
Proof. intros H (d & D & N). exists d. auto. Qed.
Lemma near_and P Q : near P -> near Q -> near (fun t => P t /\ Q t).
Proof.
  intros (d & D & N) (e & E & M). destruct (Qclt_le_dec d e) as [L|L].
  - exists d. split; [exact D|]. intros t A B. split; [auto|]. apply M; revert A B L; clear; qc.
  - exists e. split; [exact E|]. intros t A B. split; [|auto]. apply N; revert A B L; clear; qc.
Qed.
Lemma near_mp2 (P Q W : Qc -> Prop) : (forall t, P t -> Q t -> W t) -> near P -> near Q -> near W.
Proof. intros H A B. apply (near_mp (fun t => P t /\ Q t)); [intros t [X Y]; auto|now apply near_and]. Qed.
Lemma near_mp3 (P Q W Z : Qc -> Prop) : (forall t, P t -> Q t -> W t -> Z t) -> near P -> near Q -> near W -> near Z.
Proof. intros H A B C. apply (near_mp2 (fun t => P t /\ Q t) W); [intros t [X Y]; auto|now apply near_and|exact C]. Qed.
Lemma near_small d : 0 < d -> near (fun t => - d < t /\ t < d).
Proof. intros D. exists d. auto. Qed.

Definition bounded (E : Qc -> Qc) : Prop := exists K, 0 < K /\ near (fun t => - K <= E t /\ E t <= K).
Definition tangent (X : Qc -> Qc) (x : dual) : Prop :=
  exists E, bounded E /\ near (fun t => X t = fst x + t * snd x + t * t * E t).
Lemma bounded_const c : bounded (fun _ => c).
Proof.
  destruct (Qclt_le_dec c 0) as [L|L].
  - exists (1 - c). split; [revert L; clear; qc|]. apply near_all. intros _. split; revert L; clear; qc.
  - exists (1 + c). split; [revert L; clear; qc|]. apply near_all. intros _. split; revert L; clear; qc.
Qed.
Lemma bounded_t : bounded (fun t => t).
Proof. exists 1. split; [reflexivity|]. exists 1. split; [reflexivity|]. intros t A B. split; revert A B; clear; qc. Qed.
Lemma bounded_ext E F : (forall t, E t = F t) -> bounded E -> bounded F.
Proof. intros H (K & P & N). exists K. split; [exact P|]. revert N. apply near_mp. intros t. now rewrite H. Qed.
Lemma bounded_add E F : bounded E -> bounded F -> bounded (fun t => E t + F t).
Proof.
  intros (K & P & N) (L & Q & M). exists (K + L). split; [revert P Q; clear; qc|]. revert N M. apply near_mp2.
  intros t [A B] [C D]. split; revert A B C D; clear; qc.
Qed.
Lemma bounded_mul E F : bounded E -> bounded F -> bounded (fun t => E t * F t).
Proof.
  intros (K & P & N) (L & Q & M). exists (K * L). split; [revert P Q; clear; qcn|]. revert N M. apply near_mp2.
  intros t [A B] [C D].
  assert (X1 : 0 <= (K - E t) * (L + F t)) by (apply Qcmult_nonneg; [revert B|revert C]; clear; qc).
  assert (X2 : 0 <= (K + E t) * (L - F t)) by (apply Qcmult_nonneg; [revert A|revert D]; clear; qc).
  assert (X3 : 0 <= (K - E t) * (L - F t)) by (apply Qcmult_nonneg; [revert B|revert D]; clear; qc).
  assert (X4 : 0 <= (K + E t) * (L + F t)) by (apply Qcmult_nonneg; [revert A|revert C]; clear; qc).
  split; revert X1 X2 X3 X4; clear; qcn.
Qed.
(** [t] times something bounded is small. *)
Lemma bounded_small E e : bounded E -> 0 < e -> near (fun t => - e < t * E t /\ t * E t < e).
Proof.
  intros (K & P & N) H.
  assert (D : 0 < e / K).
  { unfold Qcdiv. apply Qcmult_pos; [exact H|]. apply Qcnot_le_lt. intros X.
    assert (Y : K * / K = 1) by (apply Qcmult_inv_r; intros ->; discriminate). revert X Y P. qcn. }
  assert (Y : (e / K) * K = e) by (unfold Qcdiv; rewrite <- Qcmult_assoc, (Qcmult_comm (/ K)), Qcmult_inv_r, Qcmult_1_r; [reflexivity|intros ->; discriminate]).
  generalize (near_and _ _ N (near_small _ D)). apply near_mp. intros t [[A B] [U V]].
  set (d := e / K) in *. clearbody d. rewrite <- Y.
  assert (X1 : 0 <= (d - t) * (K + E t)) by (apply Qcmult_nonneg; [revert V|revert A]; clear; qc).
  assert (X2 : 0 <= (d + t) * (K - E t)) by (apply Qcmult_nonneg; [revert U|revert B]; clear; qc).
  assert (X3 : 0 <= (d - t) * (K - E t)) by (apply Qcmult_nonneg; [revert V|revert B]; clear; qc).
  assert (X4 : 0 <= (d + t) * (K + E t)) by (apply Qcmult_nonneg; [revert U|revert A]; clear; qc).
  assert (Z1 : 0 < (d - t) * K) by (apply Qcmult_pos; [revert V; clear; qc|exact P]).
  assert (Z2 : 0 < (d + t) * K) by (apply Qcmult_pos; [revert U; clear; qc|exact P]).
  destruct (Qclt_le_dec t 0) as [T|T]; split.
  - assert (0 <= (0 - t) * (K - E t)) by (apply Qcmult_nonneg; [revert T|revert B]; clear; qc). revert Z2 H0. clear. qcn.
  - assert (0 <= (0 - t) * (K + E t)) by (apply Qcmult_nonneg; [revert T|revert A]; clear; qc). revert Z2 H0. clear. qcn.
  - assert (0 <= t * (K + E t)) by (apply Qcmult_nonneg; [exact T|revert A; clear; qc]). revert Z1 H0. clear. qcn.
  - assert (0 <= t * (K - E t)) by (apply Qcmult_nonneg; [exact T|revert B; clear; qc]). revert Z1 H0. clear. qcn.
Qed.

(** ** Tangents of curves *)
Lemma tangent_derivative X x : tangent X x -> derivative X (fst x) (snd x).
Proof.
  intros (E & (K & P & N) & M). destruct (near_and _ _ N M) as (d & D & H). exists K, d. split; [exact D|].
  intros t A B. destruct (H t A B) as [[U V] ->].
  assert (T : 0 <= t * t) by (clear; qcn).
  assert (X1 : 0 <= (t * t) * (K - E t)) by (apply Qcmult_nonneg; [exact T|revert V; clear; qc]).
  assert (X2 : 0 <= (t * t) * (K + E t)) by (apply Qcmult_nonneg; [exact T|revert U; clear; qc]).
  clear -X1 X2. set (a := t * t) in *. split; revert X1 X2; clear; qcn.
Qed.
Lemma tangent_ext X Y x : near (fun t => X t = Y t) -> tangent X x -> tangent Y x.
Proof. intros H (E & B & N). exists E. split; [exact B|]. revert H N. apply near_mp2. intros t -> ->. reflexivity. Qed.
Lemma tangent_line x : tangent (fun t => along t x) x.
Proof. exists (fun _ => 0). split; [apply bounded_const|]. apply near_all. intros t. unfold along. ring. Qed.
Lemma tangent_const c : tangent (fun _ => c) (c, 0).
Proof. exists (fun _ => 0). split; [apply bounded_const|]. apply near_all. intros t. cbn [fst snd]. ring. Qed.
Lemma tangent_add X Y x y : tangent X x -> tangent Y y -> tangent (fun t => X t + Y t) (v_add DualNum x y).
Proof.
  intros (E & B & N) (F & C & M). exists (fun t => E t + F t). split; [now apply bounded_add|].
  revert N M. apply near_mp2. intros t -> ->. cbn [v_add DualNum fst snd]. ring.
Qed.
Lemma tangent_sub X Y x y : tangent X x -> tangent Y y -> tangent (fun t => X t - Y t) (v_sub DualNum x y).
Proof.
  intros (E & B & N) (F & C & M). exists (fun t => E t + (- (1)) * F t). split; [apply bounded_add; [exact B|apply bounded_mul; [apply bounded_const|exact C]]|].
  revert N M. apply near_mp2. intros t -> ->. cbn [v_sub DualNum fst snd]. qring.
Qed.
Lemma tangent_mul X Y x y : tangent X x -> tangent Y y -> tangent (fun t => X t * Y t) (v_mul DualNum x y).
Proof.
  intros (E & B & N) (F & C & M).
  exists (fun t => E t * (fst y + t * snd y + t * t * F t) + ((fst x + t * snd x) * F t + snd x * snd y)). split.
  - apply bounded_add; [apply bounded_mul; [exact B|]|apply bounded_add; [apply bounded_mul; [|exact C]|apply bounded_const]].
    + apply bounded_add; [apply bounded_add; [apply bounded_const|apply bounded_mul; [apply bounded_t|apply bounded_const]]|].
      apply bounded_mul; [apply bounded_mul; apply bounded_t|exact C].
    + apply bounded_add; [apply bounded_const|apply bounded_mul; [apply bounded_t|apply bounded_const]].
  - revert N M. apply near_mp2. intros t -> ->. cbn [v_mul DualNum fst snd]. ring.
Qed.
Lemma tangent_close X x e : tangent X x -> 0 < e -> near (fun t => fst x - e < X t /\ X t < fst x + e).
Proof.
  intros (E & B & N) H.
  assert (C : bounded (fun t => snd x + t * E t)).
  { apply bounded_add; [apply bounded_const|apply bounded_mul; [apply bounded_t|exact B]]. }
  generalize (near_and _ _ N (bounded_small _ _ C H)). apply near_mp. intros t [-> [U V]].
  replace (fst x + t * snd x + t * t * E t) with (fst x + t * (snd x + t * E t)) by ring. split; revert U V; clear; qc.
Qed.
(** Different values stay in order. *)
Lemma tangent_ltb X Y x y : tangent X x -> tangent Y y -> fst x <> fst y ->
  near (fun t => Qcltb (X t) (Y t) = Qcltb (fst x) (fst y)).
Proof.
  intros HX HY Ne. destruct (Qclt_le_dec (fst x) (fst y)) as [L|L].
  - set (e := (fst y - fst x) * Q2Qc (1 # 2)). assert (E : 0 < e) by (unfold e; revert L; clear; qc).
    generalize (near_and _ _ (tangent_close _ _ e HX E) (tangent_close _ _ e HY E)). apply near_mp. intros t [[A B] [C D]].
    assert (Qcltb (fst x) (fst y) = true) as -> by now apply Qcltb_lt. apply Qcltb_lt. unfold e in *. revert B C. clear. qc.
  - assert (G : fst y < fst x). { apply Qcnot_le_lt. intros X'. apply Ne. apply Qcle_antisym; assumption. }
    set (e := (fst x - fst y) * Q2Qc (1 # 2)). assert (E : 0 < e) by (unfold e; revert G; clear; qc).
    generalize (near_and _ _ (tangent_close _ _ e HX E) (tangent_close _ _ e HY E)). apply near_mp. intros t [[A B] [C D]].
    assert (Qcltb (fst x) (fst y) = false) as -> by now apply Qcltb_ge. apply Qcltb_ge. unfold e in *. revert A D. clear. qc.
Qed.

(** ** The clamp *)
Definition clip (N : numsys) (v : val N) : val N := v_min N (v_one N) (v_max N (v_zero N) v).
Lemma clip_value (v : dual) : fst (clip DualNum v) = clip QcNum (fst v). Proof. reflexivity. Qed.
Lemma clip_clamp v : clip QcNum v = clamp v.
Proof.
  unfold clip, clamp. cbn [v_min v_max v_one v_zero QcNum]. unfold Qcmin', Qcmax', Qcltb.
  destruct (Qclt_le_dec 0 v) as [A|A].
  - destruct (Qclt_le_dec v 1) as [B|B]; destruct (Qclt_le_dec v 0) as [C|C]; try (exfalso; revert A C; clear; qc);
      destruct (Qclt_le_dec 1 v) as [D|D]; try reflexivity; try (exfalso; revert B D; clear; qc).
    revert B D. clear. qc.
  - destruct (Qclt_le_dec 0 1) as [B|B]; [|exfalso; revert B; clear; qc]. destruct (Qclt_le_dec v 0) as [C|C]; [reflexivity|].
    destruct (Qclt_le_dec 1 v) as [D|D]; [exfalso; revert A D; clear; qc|]. revert A C. clear. qc.
Qed.
Lemma clip_unit v : 0 <= clip QcNum v /\ clip QcNum v <= 1.
Proof.
  rewrite clip_clamp. unfold clamp. destruct (Qclt_le_dec v 0); [split; qc|]. destruct (Qclt_le_dec 1 v); [split; qc|]. auto.
Qed.
Lemma Qceqb_refl x : Qceqb x x = true. Proof. now apply Qceqb_eq. Qed.
Lemma Qceqb_ne x y : x <> y -> Qceqb x y = false.
Proof. intros H. destruct (Qceqb x y) eqn:E; [|reflexivity]. apply Qceqb_eq in E. contradiction. Qed.
Lemma Qclt_ne x y : x < y -> x <> y. Proof. intros H ->. revert H. clear. qc. Qed.

Lemma div_11 : 1 / 1 = 1. Proof. apply Qc_is_canon; reflexivity. Qed.
Lemma div_12 : 1 / (1 + 1) = Q2Qc (1 # 2). Proof. apply Qc_is_canon; reflexivity. Qed.
Lemma div_0 x : 0 / x = 0. Proof. unfold Qcdiv. apply Qcmult_0_l. Qed.
Lemma clip_dual (v : dual) : clip DualNum v = (clamp (fst v), inside (fst v) * snd v).
Proof.
  apply injective_projections; [rewrite clip_value; apply clip_clamp|]. cbn [snd]. destruct v as [v v']. cbn [fst snd].
  unfold clip, inside. cbn [v_min v_max v_one v_zero DualNum]. unfold choose. cbn [fst snd]. unfold Qcmin', Qcmax', Qcltb, balanced.
  destruct (Qclt_le_dec v 0) as [A|A].
  - destruct (Qclt_le_dec 0 v) as [B|B]; [exfalso; revert A B; clear; qc|]. destruct (Qclt_le_dec 0 1) as [_|C]; [|exfalso; revert C; clear; qc].
    rewrite (Qceqb_ne v 0) by now apply Qclt_ne. rewrite !Qceqb_refl. rewrite (Qceqb_ne 1 0) by discriminate. rewrite ?div_11, ?div_12, ?div_0; ring.
  - destruct (Qclt_le_dec 1 v) as [B|B].
    + destruct (Qclt_le_dec 0 v) as [C|C]; [|exfalso; revert B C; clear; qc]. destruct (Qclt_le_dec v 1) as [D|D]; [exfalso; revert B D; clear; qc|].
      rewrite !Qceqb_refl. rewrite (Qceqb_ne v 1) by (intros ->; revert B; clear; qc). rewrite ?div_11, ?div_12, ?div_0; ring.
    + destruct (Qc_eq_dec v 0) as [->|N0].
      * destruct (Qclt_le_dec 0 0) as [C|C]; [discriminate C|]. destruct (Qclt_le_dec 0 1) as [_|C']; [|exfalso; revert C'; clear; qc].
        rewrite !Qceqb_refl. rewrite (Qceqb_ne 1 0) by discriminate.
        rewrite ?div_11, ?div_12, ?div_0; ring.
      * destruct (Qclt_le_dec 0 v) as [C|C]; [|exfalso; apply N0; revert A C; clear; qc].
        destruct (Qc_eq_dec v 1) as [->|N1].
        -- destruct (Qclt_le_dec 1 1) as [D|D]; [discriminate D|]. rewrite !Qceqb_refl. rewrite (Qceqb_ne 0 1) by discriminate.
           rewrite ?div_11, ?div_12, ?div_0; ring.
        -- destruct (Qclt_le_dec v 1) as [D|D]; [|exfalso; apply N1; revert B D; clear; qc].
           rewrite !Qceqb_refl. rewrite (Qceqb_ne 1 v), (Qceqb_ne 0 v) by (intros <-; congruence). rewrite ?div_11, ?div_12, ?div_0; ring.
Qed.
Definition sm (c : curve) : Prop := tangent (fst c) (snd c).
Lemma derivative_tangent X x : derivative X (fst x) (snd x) -> tangent X x.
Proof.
  intros (K & d & D & H). destruct x as [x x']. cbn [fst snd] in *.
  exists (fun t => if Qc_eq_dec t 0 then 0 else (X t - x - t * x') / (t * t)). split.
  - exists (if Qclt_le_dec K 0 then 1 else K + 1). split; [destruct (Qclt_le_dec K 0) as [L|L]; [reflexivity|revert L; clear; qc]|].
    exists d. split; [exact D|]. intros t A B. destruct (H t A B) as [U V]. clear H.
    destruct (Qc_eq_dec t 0) as [Z|Z]; [destruct (Qclt_le_dec K 0) as [L|L]; split; revert L; clear; qc|].
    assert (P : 0 < t * t). { destruct (Qclt_le_dec t 0) as [L|L]; [replace (t * t) with ((0 - t) * (0 - t)) by qring; apply Qcmult_pos; revert L; clear; qc|].
      assert (0 < t) by (apply Qcnot_le_lt; intros Y; apply Z; revert L Y; clear; qc). now apply Qcmult_pos. }
    assert (Y : (X t - x - t * x') / (t * t) * (t * t) = X t - x - t * x').
    { unfold Qcdiv. rewrite <- Qcmult_assoc, (Qcmult_comm (/ _)), Qcmult_inv_r; [qring|]. intros Y. rewrite Y in P. discriminate P. }
    set (w := (X t - x - t * x') / (t * t)) in *. clearbody w. set (s := t * t) in *. clearbody s. set (y := t * x') in *. clearbody y.
    set (z := X t) in *. clearbody z.
    assert (U' : 0 <= (w + K) * s). { replace ((w + K) * s) with (w * s + K * s) by ring. rewrite Y. revert U. generalize (K * s). clear. qc. }
    assert (V' : 0 <= (K - w) * s). { replace ((K - w) * s) with (K * s - w * s) by qring. rewrite Y. revert V. generalize (K * s). clear. qc. }
    assert (U2 : - K <= w) by (apply Qcnot_lt_le; intros L; assert (0 < (0 - K - w) * s) by (apply Qcmult_pos; [revert L; clear; qc|exact P]);
      replace ((0 - K - w) * s) with (0 - (w + K) * s) in H by qring; revert H U'; generalize ((w + K) * s); clear; qc).
    assert (V2 : w <= K) by (apply Qcnot_lt_le; intros L; assert (0 < (w - K) * s) by (apply Qcmult_pos; [revert L; clear; qc|exact P]);
      replace ((w - K) * s) with (0 - (K - w) * s) in H by qring; revert H V'; generalize ((K - w) * s); clear; qc).
    destruct (Qclt_le_dec K 0) as [L|L]; split; revert U2 V2 L; clear; qc.
  - exists d. split; [exact D|]. intros t A B. cbn [fst snd]. destruct (Qc_eq_dec t 0) as [->|Z].
    + destruct (H 0 A B) as [U V]. clear H. rewrite !Qcmult_0_l in *. rewrite ?Qcmult_0_r in *. revert U V. generalize (X 0). clear. qc.
    + assert (Y : t * t * ((X t - x - t * x') / (t * t)) = X t - x - t * x').
      { unfold Qcdiv. rewrite (Qcmult_comm _ (/ _)), Qcmult_assoc, Qcmult_inv_r, Qcmult_1_l; [reflexivity|]. intros Y.
        destruct (Qcmult_integral _ _ Y); contradiction. }
      rewrite Y. qring.
Qed.
Lemma smooth_sm c : smooth c <-> sm c.
Proof. split; [apply derivative_tangent|apply tangent_derivative]. Qed.
Lemma tangent_clip (c : curve) : sm c -> corner_free c -> tangent (fun t => clip QcNum (fst c t)) (clip DualNum (snd c)).
Proof.
  destruct c as [V v]. unfold sm, corner_free. cbn [fst snd]. intros L H. rewrite clip_dual. destruct H as [[N0 N1]|[Z C]].
  - destruct (Qclt_le_dec (fst v) 0) as [A|A].
    + unfold clamp, inside. destruct (Qclt_le_dec (fst v) 0) as [_|C]; [|exfalso; revert A C; clear; qc]. rewrite Qcmult_0_l.
      refine (tangent_ext _ _ _ _ (tangent_const 0)).
      generalize (tangent_close _ _ (0 - fst v) L). intros X. generalize (X ltac:(revert A; clear; qc)). apply near_mp. intros t [_ U].
      rewrite clip_clamp. unfold clamp. destruct (Qclt_le_dec (V t) 0) as [_|C]; [reflexivity|]. exfalso. revert U C. clear. qc.
    + destruct (Qclt_le_dec 1 (fst v)) as [B|B].
      * unfold clamp, inside. destruct (Qclt_le_dec (fst v) 0) as [C|_]; [exfalso; revert A C; clear; qc|]. destruct (Qclt_le_dec 1 (fst v)) as [_|C]; [|exfalso; revert B C; clear; qc].
        rewrite Qcmult_0_l. refine (tangent_ext _ _ _ _ (tangent_const 1)).
        generalize (tangent_close _ _ (fst v - 1) L). intros X. generalize (X ltac:(revert B; clear; qc)). apply near_mp. intros t [U _].
        rewrite clip_clamp. unfold clamp. destruct (Qclt_le_dec (V t) 0) as [C|_]; [exfalso; revert U C; clear; qc|].
        destruct (Qclt_le_dec 1 (V t)) as [_|C]; [reflexivity|]. exfalso. revert U C. clear. qc.
      * assert (A' : 0 < fst v) by (apply Qcnot_le_lt; intros X; apply N0; revert A X; clear; qc).
        assert (B' : fst v < 1) by (apply Qcnot_le_lt; intros X; apply N1; revert B X; clear; qc).
        replace (clamp (fst v), inside (fst v) * snd v) with v.
        2:{ unfold clamp, inside. destruct (Qclt_le_dec (fst v) 0) as [C|_]; [exfalso; revert A C; clear; qc|]. destruct (Qclt_le_dec 1 (fst v)) as [C|_]; [exfalso; revert B C; clear; qc|].
            destruct (Qc_eq_dec (fst v) 0) as [C|_]; [contradiction|]. destruct (Qc_eq_dec (fst v) 1) as [C|_]; [contradiction|]. rewrite Qcmult_1_l. now destruct v. }
        refine (tangent_ext _ _ _ _ L).
        generalize (near_and _ _ (tangent_close _ _ _ L A') (tangent_close _ _ (1 - fst v) L ltac:(revert B'; clear; qc))).
        apply near_mp. intros t [[U _] [_ W]]. rewrite clip_clamp. unfold clamp.
        destruct (Qclt_le_dec (V t) 0) as [C|_]; [exfalso; revert U C; clear; qc|].
        destruct (Qclt_le_dec 1 (V t)) as [C|_]; [exfalso; revert W C; clear; qc|reflexivity].
  - rewrite Z, Qcmult_0_r, <- clip_clamp. refine (tangent_ext _ _ _ _ (tangent_const _)). revert C. apply near_mp. intros t ->. reflexivity.
Qed.

Lemma over_arith (th de : Qc) : th < 1 -> 0 <= de -> forall p T d c, 0 <= c -> c <= 1 ->
  1 - (1 - th) * Q2Qc (1 # 4) < p -> T < th + (1 - th) * Q2Qc (1 # 4) -> de - (1 - th) * Q2Qc (1 # 4) < d -> T < d * c + p.
Proof.
  intros T1 D0 p T d c U V A B C.
  assert (E : 0 < (1 - th) * Q2Qc (1 # 4)) by (revert T1; clear; qc).
  assert (X : - ((1 - th) * Q2Qc (1 # 4)) < d * c).
  { revert E C. generalize ((1 - th) * Q2Qc (1 # 4)). clear -D0 U V. intros e E C. destruct (Qclt_le_dec d 0) as [L|L].
    - assert (Y : 0 <= (0 - d) * (1 - c)) by (apply Qcmult_nonneg; [revert L|revert V]; clear; qc).
      assert (Z : d <= d * c) by (replace (d * c) with (d + (0 - d) * (1 - c)) by qring; revert Y; generalize ((0 - d) * (1 - c)); clear; qc).
      revert Z C D0. generalize (d * c). clear. qc.
    - assert (Y : 0 <= d * c) by (apply Qcmult_nonneg; assumption). revert Y E. generalize (d * c). clear. qc. }
  revert X A B T1. generalize (d * c). clear. qc.
Qed.

(** ** The scalar program *)
Section Program.
  Context (thrc depc : curve) (Sthr : sm thrc) (Sdep : sm depc).
  Notation thr := (snd thrc). Notation dep := (snd depc).
  Context (T1 : fst thr < 1) (T0 : 0 < fst thr) (D0 : 0 <= fst dep).
  Notation step_t t := (stats_step (N := QcNum) (fst thrc t) (fst depc t)).

  Definition follows (S0 : Qc -> stats QcNum) (S : stats DualNum) : Prop :=
    tangent (fun t => cumulative (S0 t)) (cumulative S) /\ tangent (fun t => remainder (S0 t)) (remainder S) /\
    tangent (fun t => steps (S0 t)) (steps S).
  (** what makes the halting test stable *)
  Definition settled (S : stats DualNum) : Prop :=
    (is_over (N := DualNum) thr S = true -> fst (cumulative S) = 1) /\ fst (cumulative S) <> fst thr.
  Definition clear_step (S : stats DualNum) (v : curve) : Prop :=
    sm v /\
    (is_over (N := DualNum) thr S = false ->
     corner_free v /\ fst (cumulative S) + fst dep * clamp (fst (snd v)) <> fst thr).
  Fixpoint clear (S : stats DualNum) (es : list (option curve)) : Prop :=
    match es with
    | [] => True
    | Some v :: es => clear_step S v /\ clear (stats_step (N := DualNum) thr dep S (snd v)) es
    | None :: es => clear (stats_reset (N := DualNum) thr S) es
    end.

  Lemma offered_value v : fst (offered (N := DualNum) dep v) = fst dep * clamp (fst v).
  Proof. unfold offered. fold (clip DualNum v). rewrite clip_dual. reflexivity. Qed.
  Lemma follows_over S0 S : follows S0 S -> settled S ->
    near (fun t => is_over (N := QcNum) (fst thrc t) (S0 t) = is_over (N := DualNum) thr S).
  Proof.
    intros (P & _) [_ Ne]. apply (tangent_ltb _ _ thr (cumulative S) (Sthr) P). congruence.
  Qed.
  Lemma over_goes_over S0 S (v : curve) : follows S0 S -> settled S -> is_over (N := DualNum) thr S = true ->
    near (fun t => goes_over (N := QcNum) (fst thrc t) (fst depc t) (S0 t) (fst v t) = true).
  Proof.
    intros (P & _) [One _] O. specialize (One O). set (e := (1 - fst thr) * Q2Qc (1 # 4)).
    assert (E : 0 < e) by (unfold e; revert T1; clear; qc).
    generalize (near_and _ _ (tangent_close _ _ e P E) (near_and _ _ (tangent_close _ _ e (Sthr) E) (tangent_close _ _ e (Sdep) E))).
    apply near_mp. intros t [[A _] [[_ B] [C _]]]. unfold goes_over, offered. cbn [v_ltb v_add v_mul QcNum]. fold (clip QcNum (fst v t)).
    destruct (clip_unit (fst v t)) as [U V]. set (c := clip QcNum (fst v t)) in *. clearbody c. apply Qcltb_lt. rewrite One in A.
    set (d := fst depc t) in *. set (p := cumulative (S0 t)) in *. set (T := fst thrc t) in *. clearbody d p T.
    exact (over_arith (fst thr) (fst dep) T1 D0 p T d c U V A B C).
  Qed.
  Lemma over_goes_over_dual S v : settled S -> is_over (N := DualNum) thr S = true ->
    goes_over (N := DualNum) thr dep S v = true.
  Proof.
    intros [One _] O. specialize (One O). unfold goes_over. cbn [v_ltb v_add DualNum fst]. apply Qcltb_lt. rewrite offered_value, One.
    rewrite <- clip_clamp. destruct (clip_unit (fst v)) as [U _].
    assert (Y : 0 <= fst dep * clip QcNum (fst v)) by (apply Qcmult_nonneg; assumption). revert Y T1. clear. qc.
  Qed.
  Lemma follows_used S0 S v : follows S0 S -> settled S -> clear_step S v ->
    near (fun t => goes_over (N := QcNum) (fst thrc t) (fst depc t) (S0 t) (fst v t) = goes_over (N := DualNum) thr dep S (snd v)) /\
    tangent (fun t => used (N := QcNum) (fst thrc t) (fst depc t) (S0 t) (fst v t)) (used (N := DualNum) thr dep S (snd v)).
  Proof.
    intros F St Cl. destruct (is_over (N := DualNum) thr S) eqn:O.
    - pose proof (over_goes_over S0 S v F St O) as G. rewrite (over_goes_over_dual S (snd v) St O). split; [exact G|].
      unfold used at 2. rewrite (over_goes_over_dual S (snd v) St O).
      refine (tangent_ext _ _ _ _ (tangent_sub _ _ _ _ (tangent_const 1) (proj1 F))). revert G. apply near_mp. intros t G. unfold used. now rewrite G.
    - destruct (proj2 Cl O) as [Cv Ne].
      assert (Of : tangent (fun t => offered (N := QcNum) (fst depc t) (fst v t)) (offered (N := DualNum) dep (snd v))).
      { exact (tangent_mul _ _ _ _ (Sdep) (tangent_clip v (proj1 Cl) Cv)). }
      assert (G : near (fun t => goes_over (N := QcNum) (fst thrc t) (fst depc t) (S0 t) (fst v t) = goes_over (N := DualNum) thr dep S (snd v))).
      { apply (tangent_ltb _ _ thr _ (Sthr) (tangent_add _ _ _ _ Of (proj1 F))).
        cbn [v_add DualNum fst]. rewrite offered_value. intros X. apply Ne. rewrite X. ring. }
      split; [exact G|]. unfold used at 2. destruct (goes_over (N := DualNum) thr dep S (snd v)) eqn:E.
      + refine (tangent_ext _ _ _ _ (tangent_sub _ _ _ _ (tangent_const 1) (proj1 F))). revert G. apply near_mp. intros t G. unfold used. now rewrite G.
      + refine (tangent_ext _ _ _ _ Of). revert G. apply near_mp. intros t G. unfold used. now rewrite G.
  Qed.
  Lemma follows_step S0 S v : follows S0 S -> settled S -> clear_step S v ->
    follows (fun t => step_t t (S0 t) (fst v t)) (stats_step (N := DualNum) thr dep S (snd v)).
  Proof.
    intros F St Cl. destruct (follows_used S0 S v F St Cl) as [G U]. pose proof (follows_over S0 S F St) as O. destruct F as (P & R & I).
    unfold stats_step. split; [|split]; cbn [cumulative remainder steps].
    - exact (tangent_add _ _ _ _ P U).
    - destruct (goes_over (N := DualNum) thr dep S (snd v) && negb (is_over (N := DualNum) thr S)) eqn:E.
      + refine (tangent_ext _ _ _ _ (tangent_sub _ _ _ _ (tangent_const 1) P)). revert G O. apply near_mp2. intros t -> ->. now rewrite E.
      + refine (tangent_ext _ _ _ _ R). revert G O. apply near_mp2. intros t -> ->. now rewrite E.
    - destruct (is_over (N := DualNum) thr S) eqn:E.
      + refine (tangent_ext _ _ _ _ I). revert O. apply near_mp. intros t ->. reflexivity.
      + refine (tangent_ext _ _ _ _ (tangent_add _ _ _ _ I (tangent_const 1))). revert O. apply near_mp. intros t ->. reflexivity.
  Qed.
  Lemma follows_reset S0 S : follows S0 S -> settled S ->
    follows (fun t => stats_reset (N := QcNum) (fst thrc t) (S0 t)) (stats_reset (N := DualNum) thr S).
  Proof.
    intros F St. pose proof (follows_over S0 S F St) as O. destruct F as (P & R & I).
    assert (W : tangent (fun t => switch (N := QcNum) (fst thrc t) (S0 t)) (switch (N := DualNum) thr S)).
    { unfold switch at 2. destruct (is_over (N := DualNum) thr S) eqn:E.
      - refine (tangent_ext _ _ _ _ (tangent_const 0)). revert O. apply near_mp. intros t O. unfold switch. now rewrite O.
      - refine (tangent_ext _ _ _ _ (tangent_const 1)). revert O. apply near_mp. intros t O. unfold switch. now rewrite O. }
    unfold stats_reset. split; [|split]; cbn [cumulative remainder steps]; now apply tangent_mul.
  Qed.
  Lemma settled_step S v : settled S -> clear_step S v -> settled (stats_step (N := DualNum) thr dep S (snd v)).
  Proof.
    intros St Cl. unfold settled, is_over, stats_step. cbn [cumulative]. cbn [v_ltb v_add DualNum fst].
    destruct (goes_over (N := DualNum) thr dep S (snd v)) eqn:G.
    - unfold used. rewrite G. cbn [v_sub v_one DualNum fst]. replace (fst (cumulative S) + (1 - fst (cumulative S))) with 1 by qring.
      split; [reflexivity|]. intros X. revert X T1. clear. qc.
    - unfold used. rewrite G. destruct (is_over (N := DualNum) thr S) eqn:O; [now rewrite (over_goes_over_dual S (snd v) St O) in G|].
      destruct (proj2 Cl O) as [_ Ne]. rewrite offered_value. split; [|exact Ne]. intros X. exfalso.
      unfold goes_over in G. cbn [v_ltb v_add DualNum fst] in G. rewrite offered_value in G. rewrite Qcplus_comm in G. congruence.
  Qed.
  Lemma settled_reset S : settled S -> settled (stats_reset (N := DualNum) thr S).
  Proof.
    intros [One Ne]. unfold settled, is_over, stats_reset, switch. cbn [cumulative]. destruct (is_over (N := DualNum) thr S) eqn:O; cbn [v_mul v_zero v_one v_ltb DualNum fst].
    - rewrite Qcmult_0_r. split; [intros X; apply Qcltb_lt in X; exfalso; revert X T0; clear; qc|]. intros X. revert X T0. clear. qc.
    - rewrite Qcmult_1_r. split; [|exact Ne]. intros X. unfold is_over in O. cbn [v_ltb DualNum] in O. congruence.
  Qed.
  Lemma settled_start : settled (stats0 (N := DualNum)).
  Proof.
    unfold settled, is_over, stats0. cbn. split; [intros X; apply Qcltb_lt in X; exfalso; revert X T0; clear; qc|]. intros X. revert X T0. clear. qc.
  Qed.
  Lemma follows_start : follows (fun _ => stats0 (N := QcNum)) (stats0 (N := DualNum)).
  Proof. repeat split; apply (tangent_const 0). Qed.

  Lemma follows_run es : forall S0 S, follows S0 S -> settled S -> clear S es ->
    follows (fun t => stats_run (N := QcNum) (fst thrc t) (fst depc t) (S0 t) (map (option_map (fun v : curve => fst v t)) es)) (stats_run (N := DualNum) thr dep S (map (option_map snd) es)) /\
    settled (stats_run (N := DualNum) thr dep S (map (option_map snd) es)).
  Proof.
    induction es as [|[v|] es IH]; intros S0 S F St Cl; [auto| |].
    - destruct Cl as [Cv Cl]. apply (IH (fun t => step_t t (S0 t) (fst v t)) (stats_step (N := DualNum) thr dep S (snd v))); auto using follows_step, settled_step.
    - apply (IH (fun t => stats_reset (N := QcNum) (fst thrc t) (S0 t)) (stats_reset (N := DualNum) thr S)); auto using follows_reset, settled_reset.
  Qed.
  (** One number of an accumulator. *)
  Definition pair_curve : Type := (curve * curve)%type.
  Definition at_pair (t : Qc) (e : pair_curve) : Qc * Qc := (fst (fst e) t, fst (snd e) t).
  Definition dual_pair (e : pair_curve) : dual * dual := (snd (fst e), snd (snd e)).
  Definition second_sm (e : option pair_curve) : Prop := match e with Some e => sm (snd e) | None => True end.
  Lemma follows_value (d : curve) es : sm d -> forall S0 S A a, follows S0 S -> settled S -> tangent A a -> clear S (map (option_map fst) es) -> Forall second_sm es ->
    tangent (fun t => value_run (N := QcNum) (fst thrc t) (fst depc t) (fst d t) (S0 t) (A t) (map (option_map (at_pair t)) es))
      (value_run (N := DualNum) thr dep (snd d) S a (map (option_map dual_pair) es)).
  Proof.
    intros Sd. induction es as [|[[v u]|] es IH]; intros S0 S A a F St Ta Cl Sm; [exact Ta| |]; inversion_clear Sm as [|? ? Su Sm'].
    - cbn [map option_map fst] in Cl. destruct Cl as [Cv Cl]. cbn [map at_pair dual_pair option_map fst snd value_run].
      pose proof (follows_over S0 S F St) as O. destruct (follows_used S0 S v F St Cv) as [_ U].
      apply (IH (fun t => step_t t (S0 t) (fst v t)) _ (fun t => value_step (N := QcNum) (fst thrc t) (fst depc t) (S0 t) (A t) (fst v t) (fst u t)));
        auto using follows_step, settled_step.
      unfold value_step at 2. destruct (is_over (N := DualNum) thr S) eqn:E.
      + refine (tangent_ext _ _ _ _ Ta). revert O. apply near_mp. intros t O. unfold value_step. now rewrite O.
      + refine (tangent_ext _ _ _ _ (tangent_add _ _ _ _ Ta (tangent_mul _ _ _ _ U Su))). revert O. apply near_mp. intros t O. unfold value_step. now rewrite O.
    - cbn [map option_map value_run]. pose proof (follows_over S0 S F St) as O.
      apply (IH (fun t => stats_reset (N := QcNum) (fst thrc t) (S0 t)) _ (fun t => value_reset (N := QcNum) (fst thrc t) (S0 t) (A t) (fst d t)));
        auto using follows_reset, settled_reset.
      unfold value_reset at 2. destruct (is_over (N := DualNum) thr S) eqn:E.
      + refine (tangent_ext _ _ _ _ (Sd)). revert O. apply near_mp. intros t O. unfold value_reset. now rewrite O.
      + refine (tangent_ext _ _ _ _ Ta). revert O. apply near_mp. intros t O. unfold value_reset. now rewrite O.
  Qed.
  Lemma clear_app S es es' : clear S (es ++ es') <-> clear S es /\ clear (stats_run (N := DualNum) thr dep S (map (option_map snd) es)) es'.
  Proof.
    revert S. induction es as [|[v|] es IH]; intros S; cbn [app clear map option_map]; [tauto| |].
    - rewrite IH. unfold stats_run. cbn [fold_left stats_event]. tauto.
    - rewrite IH. unfold stats_run. cbn [fold_left stats_event]. tauto.
  Qed.
End Program.
