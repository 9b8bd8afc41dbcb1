(** * Accumulators that are registered dataclasses (C84). Vocabulary: DataclassSpec.v, StateSpec.v, Wf.v. *)
From Coq Require Import QArith Qcanon Permutation Sorting.Sorted.
From Verif Require Import Base PyTree Tensor Num Utils States Controller Builder Wf Spec History ElementSpec BuilderSpec StateSpec Dataclass DataclassSpec.
From Verif Require Import BaseFacts PyTreeFacts TensorFacts ControllerFacts IterateFacts HistoryFacts QcFacts StateFacts BuilderFacts LoopFacts DataclassFacts Samples PropsState.
Close Scope Qc_scope. Close Scope Q_scope. Open Scope string_scope. Open Scope list_scope. Open Scope nat_scope.

(** A controller comes out of [jit] or of a loop with equal fields exactly if no pytree it holds contains an
    instance of a dataclass. *)
Theorem C84_partial_exactly_without_dataclasses {N} dc (s : state N) : proper s ->
  exists s', across_boundary dc s = Ok s' /\
    (same_state s s' <->
     forall k t, dget k (accumulators s) = Some t \/ dget k (defaults s) = Some t \/ dget k (updates s) = Some t ->
       free_of (fun cls => dc cls <> None) t).
Proof. intros P. eexists. split; [apply boundary_char|]. apply same_state_free; [exact P|apply boundary_char]. Qed.
Print Assumptions C84_partial_exactly_without_dataclasses.
(** Every accumulator with an instance in it has another tree structure afterwards, and no instance is left. *)
Theorem C84_refuted {N} dc (s : state N) name t : proper s ->
  dget name (accumulators s) = Some t -> ~ free_of (fun cls => dc cls <> None) t ->
  exists s' t', across_boundary dc s = Ok s' /\ dget name (accumulators s') = Some t' /\
    structure t' <> structure t /\ free_of (fun cls => dc cls <> None) t'.
Proof.
  intros P G F. eexists _, (asdict dc t). split; [apply boundary_char|]. split.
  - destruct (boundary_entries dc s _ P (boundary_char dc s) name) as (E & _). now rewrite E, G.
  - split; [|apply asdict_result]. intros H. apply F. now apply asdict_same_structure in H.
Qed.
Print Assumptions C84_refuted.

(** Without a boundary in between, an instance handed to [cache_update] is added field by field. *)
Theorem C84_partial_eager {N} (s s1 s2 : state N) name cls accs upds h :
  wf s -> wf_pending s -> awf h -> Forall awf upds ->
  dget name (accumulators s) = Some (instance cls accs) ->
  cache_update s name (instance cls upds) = Ok s1 -> iterate_act s1 h = Ok s2 ->
  exists news, dget name (accumulators s2) = Some (instance cls news) /\ length news = length accs /\ length upds = length accs /\
    forall i acc upd new, nth_error accs i = Some acc -> nth_error upds i = Some upd -> nth_error news i = Some new -> leaf_effect s h acc upd new.
Proof.
  intros W Wp Wh Wu G C I.
  destruct (apply_call_wf s s1 (CCache name (instance cls upds)) W Wp) as [W1 Wp1]; [cbn [call_wf]; unfold instance; now rewrite leaves_map_Leaf|exact C|].
  unfold cache_update in C. destruct (dget name (updates s)) as [pending|]; [|discriminate]. destruct (negb (is_none pending)); [discriminate|].
  cbn in C. injection C as <-.
  destruct (iterate_committed _ _ _ W1 Wp1 Wh I) as (Cm & _ & _). destruct (cm_acc _ _ _ Cm name _ G) as (u & t' & Hu & Ht & [A _] & L & E).
  cbn in Hu. rewrite dget_dset_eq in Hu. injection Hu as <-. unfold instance in *. rewrite !leaves_map_Leaf in L, E.
  apply structure_leaves in A as B. exists (leaves t'). rewrite <- B. split; [exact Ht|]. split; [apply structure_eq_length in A; now rewrite leaves_map_Leaf in A|].
  split; [exact L|]. intros i acc upd new H1 H2 H3. exact (E i acc upd new H1 H2 H3).
Qed.
Print Assumptions C84_partial_eager.
(** After a boundary the accumulator is a dict with the fields in alphabetical order, and the same instance is added
    to it in the order of declaration: the field in place [j] of the alphabet receives the update of the field declared in
    place [j], whatever its name. Nothing is raised if the shapes permit. *)
Theorem C84_refuted_wrong_field {N} dc (s s0 s1 s2 : state N) name cls fields accs upds h :
  wf s -> wf_pending s -> awf h -> Forall awf upds ->
  dc cls = Some fields -> NoDup fields -> length accs = length fields ->
  dget name (accumulators s) = Some (instance cls accs) ->
  across_boundary dc s = Ok s0 -> cache_update s0 name (instance cls upds) = Ok s1 -> iterate_act s1 h = Ok s2 ->
  exists order news, Permutation order fields /\ StronglySorted (fun a b => String.ltb a b = true) order /\
    dget name (accumulators s2) = Some (dictionary order news) /\ length news = length fields /\ length upds = length fields /\
    forall j i f acc upd new, nth_error order j = Some f -> nth_error fields i = Some f ->
      nth_error accs i = Some acc -> nth_error upds j = Some upd -> nth_error news j = Some new -> leaf_effect s h acc upd new.
Proof.
  intros W Wp Wh Wu D ND La G B C I. assert (P : proper s) by (split; [apply W|split; apply W]).
  destruct (boundary_wf dc s s0 W Wp B) as [W0 Wp0]. destruct (boundary_entries dc s s0 P B name) as (E & _). rewrite G in E. cbn [option_map] in E.
  rewrite (asdict_instance dc cls fields accs D) in E. cbv zeta in E. rewrite boundary_char in B. injection B as <-.
  destruct (apply_call_wf _ s1 (CCache name (instance cls upds)) W0 Wp0) as [W1 Wp1]; [cbn [call_wf]; unfold instance; now rewrite leaves_map_Leaf|exact C|].
  unfold cache_update in C. destruct (dget name (updates (canonical (asdict_state dc s)))) as [pending|]; [|discriminate]. destruct (negb (is_none pending)); [discriminate|].
  unfold replace in C. cbn [bind r_depression_constant r_error_mode] in C. injection C as <-.
  destruct (iterate_committed _ _ _ W1 Wp1 Wh I) as (Cm & _ & _). destruct (cm_acc _ _ _ Cm name _ E) as (u & t' & Hu & Ht & [A _] & L & Ef).
  cbn in Hu. rewrite dget_dset_eq in Hu. injection Hu as <-. unfold instance, dictionary in *. rewrite !leaves_map_Leaf in L, Ef.
  set (d := sort_items (combine fields accs)) in *. assert (Kd : Permutation (dkeys d) fields).
  { unfold d. etransitivity; [apply dkeys_sort_perm|]. now rewrite dkeys_combine. }
  assert (Ld : length (dvals d) = length fields) by (rewrite <- (Permutation_length Kd); unfold dvals, dkeys; now rewrite !map_length).
  apply structure_leaves in A as A'. exists (dkeys d), (leaves t'). split; [exact Kd|]. split.
  { assert (S := sort_sorted (combine fields accs)). fold d in S. assert (N' : NoDup (dkeys d)) by (eapply Permutation_NoDup; [apply Permutation_sym; exact Kd|exact ND]).
    clear -S N'. induction S as [|k ks S IH F]; [constructor|]. apply NoDup_cons_iff in N' as [Hk N']. constructor; [auto|].
    rewrite Forall_forall in F |- *. intros x Hx. apply key_le_lt; auto. intros ->. contradiction. }
  rewrite <- A'. split; [exact Ht|]. split; [apply structure_eq_length in A; rewrite leaves_map_Leaf in A; congruence|]. split; [congruence|].
  intros j i f acc upd new Hj Hi Ha Hu Hn. refine (Ef j acc upd new _ Hu Hn).
  unfold d in *. eapply sorted_position; eauto.
Qed.
Print Assumptions C84_refuted_wrong_field.
(** The state of an LSTM as a dataclass that declares [h] before [c]. One batch element and update (1 for [h], 5 for [c]) with
    halting probability 1/2: run eagerly [h] is 1/2 and [c] is 5/2, and run after a boundary [c] is 1/2 and [h] is 5/2. *)
Definition cell_class : dataclasses := fun cls => if String.eqb cls "Cell" then Some ["h"; "c"] else None.
Definition cell (h c : Qc) : tr := instance "Cell" [arr [1] [h]; arr [1] [c]].
Definition cell_ctl : st := brun (empty_state (N := QcNum) [1] DF32 (q 1 10) (q 1 1) (Some "standard")) [BDirect "cell" (cell (q 0 1) (q 0 1))].
Definition cell_half : array QcNum := arr [1] [q 1 2].
Definition cell_step (s : res st) : res st :=
  bind s (fun s => bind (cache_update s "cell" (cell (q 1 1) (q 5 1))) (fun s => iterate_act s cell_half)).
Definition cell_shape (s : res st) : option (treedef * list (list bool)) :=
  match s with
  | Ok s => option_map (fun t => (structure t, map (fun a : array QcNum => map (fun v : Qc => Qc_eq_bool v (q 1 2)) (a_data a) ++ map (fun v : Qc => Qc_eq_bool v (q 5 2)) (a_data a)) (leaves t))) (dget "cell" (accumulators s))
  | _ => None
  end.
Example C84_case_eager : cell_shape (cell_step (Ok cell_ctl)) = Some (Node (NNamed "Cell") [Leaf tt; Leaf tt], [[true; false]; [false; true]]).
Proof. vm_compute. reflexivity. Qed.
Example C84_case_boundary : cell_shape (cell_step (across_boundary cell_class cell_ctl)) = Some (Node (NDict ["c"; "h"]) [Leaf tt; Leaf tt], [[true; false]; [false; true]]).
Proof. vm_compute. reflexivity. Qed.
Lemma cell_ctl_ok : wf cell_ctl /\ wf_pending cell_ctl.
Proof.
  assert (B : new_builder_with (N := QcNum) (Some (Some "standard")) (BInt 1) (Some DF32) (q 1 10) (q 1 1) = Ok (empty_state (N := QcNum) [1] DF32 (q 1 10) (q 1 1) (Some "standard"))).
  { apply new_builder_with_ok. cbn. repeat split; auto. constructor; [lia|constructor]. }
  destruct (new_builder_wf _ _ _ _ _ _ B) as [W F].
  assert (H : Forall (bcall_wf (N := QcNum)) [BDirect "cell" (cell (q 0 1) (q 0 1))]) by repeat constructor.
  destruct (brun_wf _ _ W F H) as (A & C & _). split; [exact A|]. exact (fresh_wf_pending0 _ C).
Qed.
Example C84_case : exists order news s2, cell_step (across_boundary cell_class cell_ctl) = Ok s2 /\ dget "cell" (accumulators s2) = Some (dictionary order news).
Proof.
  destruct (across_boundary cell_class cell_ctl) as [s0|] eqn:B; [|rewrite boundary_char in B; discriminate].
  destruct (cell_step (Ok s0)) as [s2|] eqn:I; [|assert (K := C84_case_boundary); rewrite B, I in K; discriminate].
  assert (I' := I). unfold cell_step in I. cbn [bind] in I. destruct (cache_update s0 "cell" (cell (q 1 1) (q 5 1))) as [s1|] eqn:U; [|discriminate].
  cbn [bind] in I. destruct (C84_refuted_wrong_field cell_class cell_ctl s0 s1 s2 "cell" "Cell" ["h"; "c"] [arr [1] [q 0 1]; arr [1] [q 0 1]] [arr [1] [q 1 1]; arr [1] [q 5 1]] cell_half)
    as (order & news & _ & _ & R & _); try exact (proj1 cell_ctl_ok); try exact (proj2 cell_ctl_ok); try reflexivity; try assumption.
  - repeat constructor.
  - repeat constructor; cbn; intuition discriminate.
  - exists order, news, s2. auto.
Qed.
