(** * Facts about the ACT specification. *)
From Coq Require Import QArith Qcanon.
From Verif Require Import Base Num Spec BaseFacts QcFacts.
Open Scope Qc_scope.

Lemma total_app a b : total (a ++ b) = total a + total b.
Proof. induction a as [|x a IH]; simpl; [ring|]. rewrite IH. ring. Qed.
Lemma total_repeat0 n : total (repeat 0 n) = 0.
Proof. induction n as [|n IH]; simpl; [reflexivity|]. rewrite IH. ring. Qed.
Lemma dot_app a b u v : length a = length u -> dot (a ++ b) (u ++ v) = dot a u + dot b v.
Proof.
  revert u. induction a as [|x a IH]; intros [|y u] H; simpl in *; try discriminate; [ring|].
  rewrite IH by congruence. ring.
Qed.
Lemma total_nonneg l : Forall (fun x => 0 <= x) l -> 0 <= total l.
Proof.
  induction 1 as [|x l Hx Hl IH]; simpl; [apply Qcle_refl|]. revert Hx IH. generalize (total l). qc.
Qed.

Lemma clamp_range h : 0 <= clamp h /\ clamp h <= 1.
Proof.
  unfold clamp. destruct (Qclt_le_dec h 0) as [H|H]; [|destruct (Qclt_le_dec 1 h) as [H'|H']];
    split; revert H; try revert H'; qc.
Qed.
Lemma clamp_id h : 0 <= h -> h <= 1 -> clamp h = h.
Proof.
  intros H0 H1. unfold clamp. destruct (Qclt_le_dec h 0) as [H|H]; [exfalso; revert H H0; qc|].
  destruct (Qclt_le_dec 1 h) as [H'|H']; [exfalso; revert H' H1; qc|reflexivity].
Qed.

(** [halting_step] is the first index at which the running total exceeds the threshold. *)
Lemma halting_step_from thr sofar hs n :
  halting_step thr sofar hs = Some n <->
  (n < length hs)%nat /\ thr < sofar + total (firstn (S n) hs) /\
  forall m, (1 <= m <= n)%nat -> sofar + total (firstn m hs) <= thr.
Proof.
  revert sofar n. induction hs as [|h hs IH]; intros sofar n.
  - simpl. split; [discriminate|]. intros [H _]. lia.
  - cbn [halting_step]. destruct (Qclt_le_dec thr (sofar + h)) as [H|H].
    + split.
      * intros [= <-]. split; [simpl; lia|]. split; [simpl; revert H; qc|]. intros m Hm; lia.
      * intros (Hn & Ht & Hm). destruct n as [|n]; [reflexivity|]. exfalso.
        specialize (Hm 1%nat ltac:(lia)). simpl in Hm. revert Hm H. qc.
    + split.
      * intros Hs. destruct (halting_step thr (sofar + h) hs) as [n'|] eqn:E; [|discriminate].
        cbn [option_map] in Hs. assert (n = S n') by congruence. subst n. clear Hs.
        apply IH in E as (Hn & Ht & Hm). split; [simpl; lia|]. split.
        -- revert Ht. cbn [firstn total]. generalize (total match hs with [] => [] | a :: l => a :: firstn n' l end). qc.
        -- intros m Hm'. destruct m as [|m]; [lia|]. destruct m as [|m].
           ++ simpl. revert H. qc.
           ++ specialize (Hm (S m) ltac:(lia)). revert Hm. cbn [firstn total].
              generalize (total match hs with [] => [] | a :: l => a :: firstn m l end). qc.
      * intros (Hn & Ht & Hm). destruct n as [|n].
        -- exfalso. revert Ht H. simpl. qc.
        -- assert (E : halting_step thr (sofar + h) hs = Some n); [|rewrite E; reflexivity].
           apply IH. split; [simpl in Hn; lia|]. split.
           ++ revert Ht. cbn [firstn total]. generalize (total match hs with [] => [] | a :: l => a :: firstn n l end). qc.
           ++ intros m Hm'. specialize (Hm (S m) ltac:(lia)). revert Hm. cbn [firstn total].
              generalize (total (firstn m hs)). qc.
Qed.
Theorem halting_step_first thr hs n :
  halting_step thr 0 hs = Some n <->
  (n < length hs)%nat /\ thr < total (firstn (S n) hs) /\
  forall m, (1 <= m <= n)%nat -> total (firstn m hs) <= thr.
Proof.
  rewrite halting_step_from. split; intros (A & B & C); split; [assumption|split|assumption|split].
  - revert B. generalize (total (firstn (S n) hs)). qc.
  - intros m Hm. specialize (C m Hm). revert C. generalize (total (firstn m hs)). qc.
  - revert B. generalize (total (firstn (S n) hs)). qc.
  - intros m Hm. specialize (C m Hm). revert C. generalize (total (firstn m hs)). qc.
Qed.

Lemma halting_step_snoc thr sofar hs h :
  halting_step thr sofar (hs ++ [h]) =
  match halting_step thr sofar hs with
  | Some n => Some n
  | None => if Qclt_le_dec thr (sofar + total hs + h) then Some (length hs) else None
  end.
Proof.
  revert sofar. induction hs as [|x hs IH]; intros sofar; cbn [app halting_step total length].
  - replace (sofar + 0 + h) with (sofar + h) by ring.
    destruct (Qclt_le_dec thr (sofar + h)); reflexivity.
  - destruct (Qclt_le_dec thr (sofar + x)); [reflexivity|]. rewrite IH.
    replace (sofar + x + total hs + h) with (sofar + (x + total hs) + h) by ring.
    destruct (halting_step thr (sofar + x) hs); [reflexivity|].
    destruct (Qclt_le_dec thr (sofar + (x + total hs) + h)); reflexivity.
Qed.

Lemma act_weights_snoc thr hs h :
  act_weights thr (hs ++ [h]) =
  match halting_step thr 0 hs with
  | Some n => act_weights thr hs ++ [0]
  | None => if Qclt_le_dec thr (total hs + h) then hs ++ [1 - total hs] else hs ++ [h]
  end.
Proof.
  unfold act_weights. rewrite halting_step_snoc. replace (0 + total hs + h) with (total hs + h) by ring.
  destruct (halting_step thr 0 hs) as [n|] eqn:E.
  - apply halting_step_first in E as (Hn & _). rewrite app_length. cbn [length].
    rewrite firstn_app. replace (n - length hs)%nat with 0%nat by lia. cbn [firstn].
    rewrite app_nil_r, <- app_assoc. f_equal. cbn [app]. f_equal.
    replace (length hs + 1 - S n)%nat with (S (length hs - S n)) by lia.
    rewrite <- repeat_cons. reflexivity.
  - destruct (Qclt_le_dec thr (total hs + h)); [|reflexivity].
    rewrite firstn_app, Nat.sub_diag, firstn_all. cbn [firstn]. rewrite app_nil_r, app_length. cbn [length].
    replace (length hs + 1 - S (length hs))%nat with 0%nat by lia. reflexivity.
Qed.
Lemma act_weights_length thr hs : length (act_weights thr hs) = length hs.
Proof.
  unfold act_weights. destruct (halting_step thr 0 hs) as [n|] eqn:E; [|reflexivity].
  apply halting_step_first in E as (Hn & _).
  rewrite app_length, firstn_length. cbn [length]. rewrite repeat_length. lia.
Qed.

(** Cumulative probability: the sum before halting, one afterwards. *)
Lemma act_probability_cases thr hs :
  act_probability thr hs = if act_halted thr hs then 1 else total hs.
Proof.
  unfold act_probability, act_halted, act_weights. destruct (halting_step thr 0 hs) as [n|]; [|reflexivity].
  rewrite total_app. cbn [total]. rewrite total_repeat0. ring.
Qed.
(** Before halting every running total is at most the threshold. *)
Lemma not_halted_le thr hs :
  0 <= thr -> act_halted thr hs = false -> forall m, total (firstn m hs) <= thr.
Proof.
  intros Ht. induction hs as [|h hs IH] using rev_ind; intros H m.
  - rewrite firstn_nil. exact Ht.
  - unfold act_halted in *. rewrite halting_step_snoc in H.
    destruct (halting_step thr 0 hs) as [n|]; [discriminate|].
    destruct (Qclt_le_dec thr (0 + total hs + h)) as [Hx|Hx]; [discriminate|].
    specialize (IH eq_refl). destruct (Nat.le_gt_cases m (length hs)) as [Hm|Hm].
    + rewrite firstn_app. replace (m - length hs)%nat with 0%nat by lia. cbn [firstn].
      rewrite app_nil_r. apply IH.
    + rewrite firstn_all2 by (rewrite app_length; simpl; lia). rewrite total_app. simpl.
      revert Hx. generalize (total hs). qc.
Qed.
Lemma act_halted_snoc thr hs h :
  act_halted thr (hs ++ [h]) = act_halted thr hs || (if Qclt_le_dec thr (total hs + h) then true else false).
Proof.
  unfold act_halted. rewrite halting_step_snoc. replace (0 + total hs + h) with (total hs + h) by ring.
  destruct (halting_step thr 0 hs); [reflexivity|]. destruct (Qclt_le_dec thr (total hs + h)); reflexivity.
Qed.
(** Enough mass halts. *)
Lemma mass_halts thr hs : 0 <= thr -> thr < total hs -> act_halted thr hs = true.
Proof.
  intros H0 H. destruct (act_halted thr hs) eqn:E; [reflexivity|]. exfalso.
  pose proof (not_halted_le thr hs H0 E (length hs)) as Hx. rewrite firstn_all in Hx.
  revert H Hx. generalize (total hs). qc.
Qed.

(** Weights are a probability distribution once halted. *)
Lemma firstn_nonneg n hs : Forall (fun x => 0 <= x) hs -> Forall (fun x => 0 <= x) (firstn n hs).
Proof.
  revert n. induction hs as [|h hs IH]; intros [|n] H; simpl; try constructor; inversion H; auto.
Qed.
Lemma act_weights_nonneg thr hs :
  0 <= thr -> thr <= 1 -> Forall (fun h => 0 <= h) hs -> Forall (fun w => 0 <= w) (act_weights thr hs).
Proof.
  intros H0 H1 Hs. unfold act_weights. destruct (halting_step thr 0 hs) as [n|] eqn:E; [|assumption].
  apply halting_step_first in E as (Hn & _ & Hm). apply Forall_app. split; [now apply firstn_nonneg|].
  constructor.
  - assert (Hle : total (firstn n hs) <= thr).
    { destruct n as [|n]; [exact H0|]. apply Hm. lia. }
    revert Hle H1. generalize (total (firstn n hs)). qc.
  - apply Forall_forall. intros x Hx. apply repeat_spec in Hx. subst x. apply Qcle_refl.
Qed.
Lemma dot_bounds ws us lo hi :
  length ws = length us -> Forall (fun w => 0 <= w) ws -> Forall (fun u => lo <= u /\ u <= hi) us ->
  lo * total ws <= dot ws us /\ dot ws us <= hi * total ws.
Proof.
  revert us. induction ws as [|w ws IH]; intros [|u us] Hl Hw Hu; simpl in *; try discriminate.
  - split; qc.
  - inversion Hw as [|? ? Hw0 Hws]; inversion Hu as [|? ? [Hu0 Hu1] Hus]; subst.
    destruct (IH us ltac:(congruence) Hws Hus) as [A B].
    revert A B. generalize (dot ws us) (total ws). intros X T A B.
    assert (C : lo * w <= w * u) by (revert Hw0 Hu0; clear; qcn).
    assert (D : w * u <= hi * w) by (revert Hw0 Hu1; clear; qcn).
    assert (E : lo * (w + T) = lo * w + lo * T) by ring.
    assert (F : hi * (w + T) = hi * w + hi * T) by ring.
    rewrite E, F. clear E F. revert A B C D. generalize (lo * w) (lo * T) (hi * w) (hi * T) (w * u). split; qc.
Qed.
