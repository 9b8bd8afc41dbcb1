(** * Properties: the ponder cost in IEEE arithmetic (C103). Vocabulary: FloatSpec.v, ElementSpec.v. *)
From Coq Require Import ZArith Reals Lia Lra.
From Flocq Require Import Core BinarySingleNaN.
From Verif Require Import Base PyTree Tensor Num FloatNum States Controller Wf History ElementSpec ScalarSpec FloatSpec.
From Verif Require Import IterateFacts ScalarFacts HistoryFacts ScriptFacts GravesFacts FloatFacts FloatFacts2 FloatFacts3 FloatFacts4 FloatFacts5 PropsController PropsScalar PropsFloat PropsRounding.

Lemma leb_not_nan (prec emax : Z) (v w : binary_float prec emax) : Bleb v w = true -> is_nan v = false /\ is_nan w = false.
Proof. destruct v as [[|]|[|]| |[|]], w as [[|]|[|]| |[|]]; cbn; try discriminate; auto. Qed.

Section Cost.
  Context (prec emax : Z) {Hp : Prec_gt_0 prec} {Hm : Prec_lt_emax prec emax} (H2 : (2 <= prec)%Z).
  Notation N := (FloatNum prec emax).
  Notation bf := (binary_float prec emax).
  Notation rnd := (round radix2 (SpecFloat.fexp prec emax) ZnearestE).
  Local Open Scope R_scope.
  Context (s1 s2 : state N) (E1 : eps_ok (epsilon s1)) (E2 : eps_ok (epsilon s2)).
  Context (D1 : dep_ok prec emax (depression_constant s1)) (D2 : dep_ok prec emax (depression_constant s2)).
  Context (LE : B2R (epsilon s1 : pyfloat) <= B2R (epsilon s2 : pyfloat)).
  Context (LD : B2R (depression_constant s1 : pyfloat) <= B2R (depression_constant s2 : pyfloat)).
  Notation dep s := (v_of_scl N (depression_constant s)).
  Notation t1 := (threshold s1). Notation t2 := (threshold s2).

  Record costs (k : Z) (x y : stats N) : Prop := {
    co_b : fbehind prec emax x y; co_x : sane prec emax s1 x; co_y : sane prec emax s2 y;
    co_rx : funit (remainder x : bf); co_ry : funit (remainder y : bf);
    co_n : exists a b, counts (steps x : bf) a /\ counts (steps y : bf) b /\ (0 <= b <= k)%Z /\ (0 <= a <= k)%Z /\
      (is_over t1 x = false -> a = k) /\ (is_over t2 y = false -> b = k) /\
      (is_over t1 x = true -> (b < a)%Z \/ b = a /\ B2R (remainder y : bf) <= B2R (remainder x : bf)) }.

  Lemma over_halts (s : state N) x (v : bf) : eps_ok (epsilon s) -> dep_ok prec emax (depression_constant s) -> sane prec emax s x -> is_nan v = false ->
    is_over (threshold s) (stats_step (threshold s) (dep s) x v) = true -> is_over (threshold s) x = false -> halts_now s (cumulative x) v = true.
  Proof.
    intros He Hd S Nn H O. destruct (halts_now s (cumulative x) v) eqn:Eh; [reflexivity|exfalso]. pose proof (sn_unit _ _ _ _ S) as Ux.
    destruct (running_step prec emax H2 s He Hd (cumulative x) v Ux Nn Eh) as (_ & _ & _ & L).
    change (is_over (threshold s) (stats_step (threshold s) (dep s) x v)) with (halted_at s (next_p s (cumulative x) v)) in H.
    pose proof (sn_unit _ _ _ _ (sane_step prec emax H2 s He Hd x v S Nn)) as U'.
    apply (halted_R prec emax H2 s _ He) in H; [lra|]. exact U'.
  Qed.
  Lemma rem_step (s : state N) x (v : bf) : remainder (stats_step (threshold s) (dep s) x v) =
    if halts_now s (cumulative x) v && negb (is_over (threshold s) x) then f_sub f_one (cumulative x : bf) else remainder x.
  Proof. reflexivity. Qed.
  Lemma rem_unit (s : state N) x (v : bf) : sane prec emax s x -> funit (remainder x : bf) -> funit (remainder (stats_step (threshold s) (dep s) x v) : bf).
  Proof. intros S U. rewrite rem_step. destruct (_ && _); [exact (proj1 (sub_one prec emax H2 _ (sn_unit _ _ _ _ S)))|exact U]. Qed.

  Lemma costs_step k x y (v w : bf) : (0 <= k < 2 ^ prec)%Z -> costs k x y -> Bleb v w = true ->
    costs (k + 1) (stats_step t1 (dep s1) x v) (stats_step t2 (dep s2) y w).
  Proof.
    intros K [B X Y Rx Ry (a & b & Ca & Cb & Lb & La & Ka & Kb & O)] L.
    destruct (leb_not_nan prec emax v w L) as [Nv Nw].
    pose proof (fbehind_step prec emax H2 s1 s2 E1 E2 D1 D2 LE LD x y v w B L) as B'.
    pose proof (fbehind_over prec emax H2 s1 s2 E1 E2 LE x y B) as Ov.
    pose proof (fbehind_over prec emax H2 s1 s2 E1 E2 LE _ _ B') as Ov'.
    split; [exact B'|now apply sane_step|now apply sane_step|now apply rem_unit|now apply rem_unit|].
    cbn [steps stats_step].
    destruct (is_over t1 x) eqn:Ox.
    - rewrite (Ov eq_refl). exists a, b. split; [exact Ca|]. split; [exact Cb|]. split; [lia|]. split; [lia|].
      pose proof (over_step prec emax H2 s1 E1 D1 x v X Nv Ox) as Ox'. pose proof (over_step prec emax H2 s2 E2 D2 y w Y Nw (Ov eq_refl)) as Oy'.
      split; [intros Q; rewrite Ox' in Q; discriminate|]. split; [intros Q; rewrite Oy' in Q; discriminate|]. intros _.
      rewrite !rem_step, Ox, (Ov eq_refl). cbn [negb]. rewrite !andb_false_r. exact (O eq_refl).
    - specialize (Ka eq_refl). subst a.
      pose proof (count_step prec emax H2 (steps x) k ltac:(lia) Ca) as Ca'. rewrite Z.min_l in Ca' by lia.
      destruct (is_over t2 y) eqn:Oy.
      + exists (k + 1)%Z, b. split; [exact Ca'|]. split; [exact Cb|]. split; [lia|]. split; [lia|]. split; [auto|].
        pose proof (over_step prec emax H2 s2 E2 D2 y w Y Nw Oy) as Oy'. split; [intros Q; rewrite Oy' in Q; discriminate|]. intros _. left. lia.
      + specialize (Kb eq_refl). subst b. pose proof (count_step prec emax H2 (steps y) k ltac:(lia) Cb) as Cb'. rewrite Z.min_l in Cb' by lia.
        exists (k + 1)%Z, (k + 1)%Z. split; [exact Ca'|]. split; [exact Cb'|]. split; [lia|]. split; [lia|]. split; [auto|]. split; [auto|].
        intros Q. right. split; [reflexivity|]. rewrite !rem_step, Ox, Oy. cbn [negb]. rewrite !andb_true_r.
        rewrite (over_halts s1 x v E1 D1 X Nv Q Ox), (over_halts s2 y w E2 D2 Y Nw (Ov' Q) Oy).
        rewrite (proj2 (sub_one prec emax H2 _ (fb_x _ _ _ _ B))), (proj2 (sub_one prec emax H2 _ (fb_y _ _ _ _ B))).
        apply rnd_le; [exact Hp|]. pose proof (fb_le _ _ _ _ B). lra.
  Qed.
  Lemma costs0 : costs 0 stats0 stats0.
  Proof.
    split; [now apply fbehind0|now apply sane0|now apply sane0|apply (zero_unit prec emax)|apply (zero_unit prec emax)|].
    exists 0%Z, 0%Z. repeat split; try reflexivity; try lia. intros _. right. split; [reflexivity|lra].
  Qed.
  Lemma costs_run vs : forall ws x y k, (0 <= k)%Z -> (k + Z.of_nat (length vs) <= 2 ^ prec)%Z -> costs k x y ->
    Forall2 (fun v w : val N => Bleb (v : bf) w = true) vs ws ->
    costs (k + Z.of_nat (length vs)) (stats_run t1 (dep s1) x (map Some vs)) (stats_run t2 (dep s2) y (map Some ws)).
  Proof.
    induction vs as [|v vs IH]; intros ws x y k K0 K C F; inversion F; subst.
    - cbn. now rewrite Z.add_0_r.
    - cbn [map stats_run fold_left stats_event]. cbn [length] in *. rewrite Nat2Z.inj_succ in *.
      replace (k + Z.succ (Z.of_nat (length vs)))%Z with ((k + 1) + Z.of_nat (length vs))%Z by lia.
      apply IH; auto; try lia. apply costs_step; auto; lia.
  Qed.
End Cost.

(** C103 in every binary format, up to 2^prec iterations: the exact sum of the stored iterations and residual. *)
Theorem C103_float (prec emax : Z) {Hp : Prec_gt_0 prec} {Hm : Prec_lt_emax prec emax}
  (s1 s2 : state (FloatNum prec emax)) cs1 cs2 i1 i2 p1 r1 n1 p2 r2 n2 :
  (2 <= prec)%Z ->
  wf s1 -> fresh s1 -> Forall call_wf cs1 -> Forall (fun c => c <> CReset) cs1 ->
  wf s2 -> fresh s2 -> Forall call_wf cs2 -> Forall (fun c => c <> CReset) cs2 ->
  eps_ok (epsilon s1) -> eps_ok (epsilon s2) -> (B2R (epsilon s1 : pyfloat) <= B2R (epsilon s2 : pyfloat))%R ->
  dep_ok prec emax (depression_constant s1) -> dep_ok prec emax (depression_constant s2) ->
  (B2R (depression_constant s1 : pyfloat) <= B2R (depression_constant s2 : pyfloat))%R ->
  Forall2 (fun v w : val (FloatNum prec emax) => Bleb (v : binary_float prec emax) w = true)
    (values_of i1 (returned s1 cs1)) (values_of i2 (returned s2 cs2)) ->
  (Z.of_nat (length (values_of i1 (returned s1 cs1))) <= 2 ^ prec)%Z ->
  element (run s1 cs1) i1 p1 r1 n1 -> element (run s2 cs2) i2 p2 r2 n2 ->
  halted (run s1 cs1) i1 = Some true ->
  let R (x : val (FloatNum prec emax)) := B2R (x : binary_float prec emax) in
  halted (run s2 cs2) i2 = Some true /\ (R n2 + R r2 <= R n1 + R r1)%R /\
  (R n2 = R n1 -> R r2 <= R r1)%R /\ (R n2 <> R n1 -> R n2 + 1 <= R n1)%R.
Proof.
  intros H2 W1 F1 C1 R1 W2 F2 C2 R2 E1 E2 LE D1 D2 LD V K El1 El2 H1 R.
  destruct (C64_every_element_runs_the_scalar_program s1 cs1 W1 F1 C1) as [S1 _]. specialize (S1 _ _ _ _ El1).
  destruct (C64_every_element_runs_the_scalar_program s2 cs2 W2 F2 C2) as [S2 _]. specialize (S2 _ _ _ _ El2).
  rewrite (stats_program_values i1 _ (returned_all _ s1 cs1 R1)) in S1.
  rewrite (stats_program_values i2 _ (returned_all _ s2 cs2 R2)) in S2.
  assert (B : costs prec emax s1 s2 (0 + Z.of_nat (length (values_of i1 (returned s1 cs1)))) (mkStats p1 r1 n1) (mkStats p2 r2 n2)).
  { rewrite S1, S2. apply (costs_run prec emax H2 s1 s2 E1 E2 D1 D2 LE LD); [lia|lia|now apply costs0|exact V]. }
  rewrite (halted_is_over s1 cs1 i1 _ _ _ W1 F1 C1 El1) in H1. apply Some_inj in H1.
  rewrite (halted_is_over s2 cs2 i2 _ _ _ W2 F2 C2 El2).
  destruct B as [B X Y [Fx Rx] [Fy Ry] (a & b & [_ Ca] & [_ Cb] & Lb & La & _ & _ & O)]. specialize (O H1). cbn [steps remainder] in *.
  split; [f_equal; exact (fbehind_over prec emax H2 s1 s2 E1 E2 LE _ _ B H1)|].
  unfold R. rewrite Ca, Cb.
  assert (Lt : (b < a)%Z -> (IZR b + 1 <= IZR a)%R) by (intros Q; rewrite <- plus_IZR; apply IZR_le; lia).
  destruct O as [O|[-> O]].
  - specialize (Lt O). split; [lra|]. split; [lra|auto].
  - split; [lra|]. split; [auto|congruence].
Qed.
Print Assumptions C103_float.
(** in binary32, threshold 0.9: element 1 gets (1/10, 9/10, 1/2) in [calls32] and (19/20, 9/10, 1/2) in [more32] *)
Example C103_float_case : (2 <= 24)%Z /\ wf tenth /\ fresh tenth /\ Forall call_wf calls32 /\ Forall (fun c => c <> CReset) calls32 /\
  Forall call_wf more32 /\ Forall (fun c => c <> CReset) more32 /\
  eps_ok (epsilon tenth) /\ dep_ok 24 128 (depression_constant tenth) /\
  Forall2 (fun v w : val N32 => Bleb (v : binary_float 24 128) w = true) (values_of 1 (returned tenth calls32)) (values_of 1 (returned tenth more32)) /\
  (Z.of_nat (length (values_of 1 (returned tenth calls32))) <= 2 ^ 24)%Z /\
  halted (run tenth calls32) 1 = Some true /\
  bits (iterations (run tenth calls32)) = [B2SF (f32 3 1); B2SF (f32 2 1)] /\
  bits (iterations (run tenth more32)) = [B2SF (f32 3 1); B2SF (f32 1 1)].
Proof.
  destruct (ctl32_ok _ tenth_sane) as (W & F & _). destruct C65_float_case as (_ & _ & A1 & A2 & A3 & A4 & A5 & A6 & A7).
  split; [discriminate|]. split; [exact W|]. split; [exact F|]. split; [exact A1|]. split; [exact A2|]. split; [exact A3|]. split; [exact A4|].
  destruct tenth_settings as (Te & Td & _). split; [exact Te|]. split; [exact Td|].
  split; [exact A5|]. split; [vm_compute; discriminate|]. split; [vm_compute; reflexivity|]. split; [exact A6|exact A7].
Qed.
