(** * Concrete controllers and layers for the cases of PropsDual.v *)
From Coq Require Import QArith Qcanon Lia ZArith.
From Verif Require Import Base PyTree Tensor Num Utils States Controller Viewer Layers Wf Spec History ElementSpec ScalarSpec StateSpec LayerSpec TraceSpec Jit JitSpec SlopeSpec Dual DualSpec.
From Verif Require Import BaseFacts TensorFacts PyTreeFacts QcFacts Samples ControllerFacts IterateFacts HistoryFacts AgreeFacts GravesFacts ExactFacts ScalarFacts ScriptFacts TraceFacts TraceFacts2 MoveFacts JitFacts
  StateFacts LayerFacts LayerFacts2 LayerFacts3 LayerFacts4 LoopFacts IeeeLoopFacts2 DualFacts DualFacts2 DualFacts3 DualFacts4 DualFacts5.
From Verif Require Import PropsController PropsScalar PropsLayers PropsLoop PropsSlope.
Close Scope Qc_scope. Close Scope Q_scope. Close Scope R_scope. Close Scope Z_scope. Open Scope string_scope. Open Scope list_scope. Open Scope nat_scope.

(** ** Deciding that no corner is met *)
Definition step_clear (s : state DualNum) (h : array DualNum) (i : nat) : bool :=
  match nth_error (data (halted_batches s)) i, nth_error (a_data (probabilities s)) i, nth_error (a_data h) i with
  | Some false, Some p, Some v =>
      negb (Qceqb (fst (v : dual)) 0) && negb (Qceqb (fst (v : dual)) 1) &&
      negb (Qceqb (fst (p : dual) + fst (depression_constant s : dual) * clamp (fst (v : dual)))%Qc (1 - fst (epsilon s : dual))%Qc)
  | _, _, _ => true
  end.
Fixpoint all_clear (s : state DualNum) (cs : list (call DualNum)) (i : nat) : bool :=
  match cs with
  | [] => true
  | c :: cs' => match c with CIter h => step_clear s h i | _ => true end && all_clear (after s c) cs' i
  end.
Lemma all_clear_split before : forall s h after i, all_clear s (before ++ CIter h :: after) i = true -> step_clear (run s before) h i = true.
Proof.
  induction before as [|c before IH]; intros s h rest i H; cbn [app all_clear] in H; apply andb_true_iff in H as [A B]; [exact A|]. exact (IH _ _ _ _ B).
Qed.
Lemma step_clear_spec s h i (p v : dual) : step_clear s h i = true ->
  nth_error (data (halted_batches s)) i = Some false -> nth_error (a_data (probabilities s)) i = Some p -> nth_error (a_data h) i = Some v ->
  (fst v <> 0 /\ fst v <> 1)%Qc /\ (fst p + fst (depression_constant s : dual) * clamp (fst v) <> 1 - fst (epsilon s : dual))%Qc.
Proof.
  unfold step_clear. intros H A B C. rewrite A, B, C in H. rewrite !andb_true_iff, !negb_true_iff in H. destruct H as [[H1 H2] H3].
  assert (K : forall x y, Qceqb x y = false -> x <> y) by (intros x y E ->; rewrite Qceqb_refl in E; discriminate).
  split; [split|]; now apply K.
Qed.
Lemma clear_corners s cs i : all_clear s cs i = true -> clear_of_corners s cs i.
Proof.
  intros H before h rest -> s1 _ p v A B C. pose proof (all_clear_split _ _ _ _ _ H) as S. destruct (step_clear_spec _ _ _ p v S A B C) as [X Y].
  split; [left; exact X|exact Y].
Qed.
Lemma clear_curves s cs i : all_clear (dual_state s) (map dual_call cs) i = true -> off_corners s cs i.
Proof.
  intros H before h rest -> s1 _ p v A B C. rewrite map_app in H. pose proof (all_clear_split _ _ (dual_array h) _ _ H) as S.
  assert (Cv : nth_error (a_data (dual_array h)) i = Some (snd v)).
  { unfold dual_array, move_array, tensor_map, a_data. cbn [a_ten data]. unfold a_data in C. rewrite nth_error_map, C. reflexivity. }
  destruct (step_clear_spec _ _ _ p (snd v) S A B Cv) as [X Y]. split; [left; exact X|exact Y].
Qed.

Lemma belongs_shapes {N} (s : state N) k l j i R shapes : option_map (fun T => map a_shape (leaves T)) (dget k (accumulators s)) = Some shapes ->
  nth_error shapes l = Some (batch_shape s ++ R) -> j / size R = i -> belongs s k l j i.
Proof.
  unfold belongs. destruct (dget k (accumulators s)) as [T|]; [|discriminate]. cbn [option_map]. intros [= <-]. rewrite nth_error_map.
  destruct (nth_error (leaves T) l) as [a|] eqn:E; [|discriminate]. cbn. intros [= H] Hj. exists T, a, R. auto.
Qed.

(** ** Everything grows at a rate equal to itself *)
Definition growing (x : Qc) : dual := (x, x).
Definition ctl_d : state DualNum := move (N := QcNum) (M := DualNum) growing growing ctl1.
Definition calls_d : list (call DualNum) := map (move_call (N := QcNum) (M := DualNum) growing) slope_calls.
Lemma ctl_d_wf : wf ctl_d. Proof. apply move_wf. apply ctl1_ok. Qed.
Lemma ctl_d_fresh : fresh ctl_d. Proof. apply move_fresh; [reflexivity|apply ctl1_ok]. Qed.
Lemma calls_d_wf : Forall call_wf calls_d. Proof. apply (move_calls_wf (N := QcNum) (M := DualNum)). repeat constructor. Qed.
Lemma calls_d_clear i : i < 2 -> clear_of_corners ctl_d calls_d i.
Proof. intros H. apply clear_corners. destruct i as [|[|i]]; [vm_compute; reflexivity|vm_compute; reflexivity|lia]. Qed.

(** ** A layer with one weight, [1 + t]: the user state is multiplied by it, its numbers are the halting probabilities *)
Definition fixed (x : Qc) : curve := line (x, 0%Qc).
Definition weight_c : curve := line (1%Qc, 1%Qc).
Definition init_h {N} (u : tree (array N)) (d : array N) : array N := match u with Leaf a => a | _ => d end.
Definition parts_c : parts CurveNum := mkParts _
  (move_tree (N := CurveNum) (M := CurveNum) (v_mul CurveNum weight_c))
  (fun u => move_dict (N := QcNum) (M := CurveNum) fixed (updU initU))
  (fun u => init_h u (move_array (N := QcNum) (M := CurveNum) fixed (hp (q 0 1) (q 0 1)))).
Definition parts_q (t : Qc) : parts QcNum := mkParts _
  (move_tree (N := QcNum) (M := QcNum) (fun x => (1 + t) * x)%Qc)
  (fun u => updU initU)
  (fun u => init_h u (hp (q 0 1) (q 0 1))).
Definition parts_d : parts DualNum := mkParts _
  (move_tree (N := DualNum) (M := DualNum) (v_mul DualNum ((1%Qc, 1%Qc) : dual)))
  (fun u => move_dict (N := QcNum) (M := DualNum) constant (updU initU))
  (fun u => init_h u (move_array (N := QcNum) (M := DualNum) constant (hp (q 0 1) (q 0 1)))).
Definition ctl_c : state CurveNum := move (N := QcNum) (M := CurveNum) fixed fixed ctl0.
Definition init_c : tree (array CurveNum) := move_tree (N := QcNum) (M := CurveNum) fixed (Leaf (hp (q 2 5) (q 1 5))).

Lemma fixed_at t x : at_time t (fixed x) = x.
Proof. unfold fixed. rewrite line_at. unfold along. cbn [fst snd]. ring. Qed.
Lemma fixed_tree_smooth t : smooth_tree (move_tree (N := QcNum) (M := CurveNum) fixed t).
Proof.
  unfold smooth_tree. rewrite leaves_move. apply Forall_map, Forall_forall. intros a _. unfold smooth_array, move_array, a_data, tensor_map. cbn [a_ten data].
  apply Forall_map, Forall_forall. intros x _. apply line_smooth.
Qed.
Lemma weight_smooth c : smooth c -> smooth (v_mul CurveNum weight_c c).
Proof.
  intros H. change (derivative (fun t => fst weight_c t * fst c t)%Qc (fst (v_mul DualNum (snd weight_c) (snd c))) (snd (v_mul DualNum (snd weight_c) (snd c)))). apply tangent_derivative. pose proof (line_smooth (1%Qc, 1%Qc)) as L. apply smooth_sm in L, H.
  exact (tangent_mul _ _ _ _ L H).
Qed.
Lemma ctl_c_smooth : smooth_state ctl_c.
Proof.
  split; [apply line_smooth|]. split; [apply line_smooth|]. intros k x E. apply (dget_move_inv (N := QcNum) (M := CurveNum)) in E as (t & _ & ->). apply fixed_tree_smooth.
Qed.
Lemma parts_differentiable : differentiable parts_c parts_q parts_d.
Proof.
  intros u Su. cbn [parts_c parts_q parts_d p_next p_updates p_halting].
  assert (Id : forall x : Qc, (fun x => x) x = x) by reflexivity.
  split.
  { unfold smooth_tree in *. rewrite leaves_move. apply Forall_map. revert Su. apply Forall_impl. intros a. unfold smooth_array, move_array, a_data, tensor_map. cbn [a_ten data].
    intros F. apply Forall_map. revert F. apply Forall_impl. apply weight_smooth. }
  split. { intros k x E. apply (dget_move_inv (N := QcNum) (M := CurveNum)) in E as (t & _ & ->). apply fixed_tree_smooth. }
  split. { destruct u as [a|k cs]; cbn [init_h]. { inversion_clear Su. assumption. } pose proof (fixed_tree_smooth (Leaf (hp (q 0 1) (q 0 1)))) as X. inversion_clear X. assumption. }
  split.
  { intros t. split; [|split].
    - unfold tree_at. rewrite (move_tree_twice (N := CurveNum) (M := QcNum) (P := QcNum) (at_time t) _ (fun c => (1 + t) * fst c t)%Qc) by reflexivity.
      rewrite (move_tree_twice (N := CurveNum) (M := CurveNum) (P := QcNum) (v_mul CurveNum weight_c) (at_time t) (fun c => (1 + t) * fst c t)%Qc); [reflexivity|].
      intros c. change (at_time t weight_c * fst (c : curve) t = (1 + t) * fst (c : curve) t)%Qc. unfold weight_c. rewrite line_at. unfold along. cbn [fst snd]. ring.
    - unfold dict_at. rewrite (move_dict_twice (N := QcNum) (M := CurveNum) (P := QcNum) fixed (at_time t) (fun x => x)) by (intros x; apply fixed_at).
      symmetry. now apply (move_dict_id (N := QcNum)).
    - destruct u as [a|k cs]; [reflexivity|]. cbn [tree_at move_tree tmap init_h]. unfold array_at.
      rewrite (move_array_twice (N := QcNum) (M := CurveNum) (P := QcNum) fixed (at_time t) (fun x => x)) by (intros x; apply fixed_at).
      symmetry. now apply (move_array_id (N := QcNum)). }
  split.
  { unfold dual_tree. rewrite (move_tree_twice (N := CurveNum) (M := DualNum) (P := DualNum) snd _ (fun c : curve => v_mul DualNum ((1%Qc, 1%Qc) : dual) (snd c))) by reflexivity.
    now rewrite (move_tree_twice (N := CurveNum) (M := CurveNum) (P := DualNum) (v_mul CurveNum weight_c) snd (fun c : curve => v_mul DualNum ((1%Qc, 1%Qc) : dual) (snd c))). }
  split.
  { unfold dual_dict. now rewrite (move_dict_twice (N := QcNum) (M := CurveNum) (P := DualNum) fixed snd constant). }
  destruct u as [a|k cs]; [reflexivity|]. cbn [dual_tree move_tree tmap init_h]. unfold dual_array. now rewrite (move_array_twice (N := QcNum) (M := CurveNum) (P := DualNum) fixed snd constant).
Qed.
Lemma parts_fit k : step_fits ctl_c (p_updates parts_c (state_after parts_c k init_c)) (p_halting parts_c (state_after parts_c k init_c)).
Proof.
  assert (S : exists a, state_after parts_c k init_c = Leaf a /\ awf a /\ a_shape a = [2] /\ a_dt a = DF32).
  { assert (G : forall u a, u = Leaf a -> awf a -> a_shape a = [2] -> a_dt a = DF32 -> exists b, state_after parts_c k u = Leaf b /\ awf b /\ a_shape b = [2] /\ a_dt b = DF32).
    { induction k as [|k IH]; intros u a -> A B C; [exists a; auto|]. unfold state_after. cbn [nth_state]. eapply IH; [reflexivity| | |].
      - now apply (awf_move (N := CurveNum) (M := CurveNum)).
      - exact B.
      - exact C. }
    eapply G; [reflexivity| | |]; reflexivity. }
  destruct S as (a & -> & A & B & C).
  pose proof (proj1 (proj2 (proj2 (proj2 (proj2 (proj2 (proj2 C72_case))))))) as F. specialize (F 0).
  apply (move_fits (N := QcNum) (M := CurveNum) fixed fixed) in F. destruct F as (F1 & F2 & F3 & _).
  split; [exact F1|]. split; [exact F2|]. split; [exact F3|]. cbn [parts_c p_halting init_h]. split; [exact A|]. split; [exact B|]. now rewrite C.
Qed.
Lemma ctl_c_clear i : i < size (batch_shape ctl_c) -> off_corners ctl_c (calls_of parts_c (Z.to_nat (Z.max 0 6)) init_c) i.
Proof.
  intros H. apply clear_curves. assert (L : i < 2) by exact H. destruct i as [|[|i]]; [vm_compute; reflexivity|vm_compute; reflexivity|lia].
Qed.
