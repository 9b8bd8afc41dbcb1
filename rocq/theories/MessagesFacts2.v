(** * Facts for C85: which complaint comes first *)
From Coq Require Import Ascii Lia Sorted.
From Verif Require Import Base BaseFacts PyTree Tensor TensorFacts Num Utils UtilsFacts States Controller ControllerFacts Builder Editor Checkify Wf UtilsSpec EditorSpec.
From Verif Require Import Text TextSpec TextFacts PyStr Messages MessagesSpec MessagesFacts.
Open Scope string_scope. Open Scope list_scope.

(** ** The first failure of a list of checks *)
Section First.
  Context {X : Type} (rk : X -> nat).
  Fixpoint first_false (cs : list (bool * X)) : option X :=
    match cs with [] => None | (true, _) :: cs' => first_false cs' | (false, x) :: _ => Some x end.
  Definition ordered (cs : list (bool * X)) : Prop := StronglySorted lt (map (fun c => rk (snd c)) cs).
  Lemma ordered_cons b x cs : ordered ((b, x) :: cs) <-> ordered cs /\ forall b' y, In (b', y) cs -> rk x < rk y.
  Proof.
    unfold ordered. cbn [map snd]. split.
    - intros H. inversion H as [|? ? S F]; subst. split; [exact S|]. intros b' y I. rewrite Forall_forall in F. apply F. apply in_map_iff. now exists (b', y).
    - intros [S F]. constructor; [exact S|]. apply Forall_forall. intros n I. apply in_map_iff in I as ([b' y] & <- & I). exact (F b' y I).
  Qed.
  Lemma first_false_iff cs x : ordered cs ->
    (first_false cs = Some x <-> In (false, x) cs /\ forall y, In (false, y) cs -> rk x <= rk y).
  Proof.
    induction cs as [|[b z] cs IH]; intros O; cbn [first_false].
    - split; [discriminate|intros [[] _]].
    - apply ordered_cons in O as [O L]. destruct b.
      + rewrite (IH O). split.
        * intros [I M]. split; [now right|]. intros y [E|J]; [discriminate|auto].
        * intros [[E|I] M]; [discriminate|]. split; [exact I|]. intros y J. apply M. now right.
      + split.
        * intros [= ->]. split; [now left|]. intros y [[= ->]|J]; [lia|]. specialize (L _ _ J). lia.
        * intros [[[= ->]|I] M]; [reflexivity|]. specialize (L _ _ I). specialize (M z (or_introl eq_refl)). lia.
  Qed.
  Lemma first_false_none cs : first_false cs = None <-> forall x, ~ In (false, x) cs.
  Proof.
    induction cs as [|[b z] cs IH]; cbn [first_false].
    - split; [intros _ x []|reflexivity].
    - destruct b.
      + rewrite IH. split; intros H x; [intros [E|I]; [discriminate|now apply (H x)]|intros I; apply (H x); now right].
      + split; [discriminate|]. intros H. exfalso. apply (H z). now left.
  Qed.
  Fixpoint program_of (text : X -> string) (cs : list (bool * X)) (rest : program unit) : program unit :=
    match cs with [] => rest | (b, x) :: cs' => Check b (text x) (program_of text cs' rest) end.
  Lemma program_app text a b rest : program_of text (a ++ b) rest = program_of text a (program_of text b rest).
  Proof. induction a as [|[ok x] a IH]; cbn; [reflexivity|]. now rewrite IH. Qed.
  Lemma checkify_program text cs : checkify (program_of text cs (Return tt)) = Ok (option_map text (first_false cs), tt).
  Proof. induction cs as [|[b x] cs IH]; cbn; [reflexivity|]. rewrite IH. cbn. destruct b; reflexivity. Qed.
  Lemma checkify_program_raise text cs e : checkify (program_of text cs (Raise e)) = Err e.
  Proof. induction cs as [|[b x] cs IH]; cbn; [reflexivity|]. now rewrite IH. Qed.
End First.

Section Editors.
  Context {N : numsys} (str_scl : scl N -> string).
  Notation st := (state N).
  Notation tr := (tree (array N)).
  Notation message := (message str_scl).
  Notation edit_aloud := (edit_aloud str_scl).

  Fixpoint leaf_course (i : nat) (os ns : list (array N)) : list (bool * complaint) :=
    match os, ns with
    | o :: os', n :: ns' =>
        (check_same_shape o n, LeafShape i (a_shape o) (a_shape n)) :: (check_same_dtype o n, LeafDtype i (a_dt o) (a_dt n)) :: leaf_course (S i) os' ns'
    | _, _ => []
    end.
  Definition tensor_course (o n : array N) : list (bool * complaint) :=
    [(check_same_shape o n, ShapeDiffers (a_shape o) (a_shape n)); (check_same_dtype o n, DtypeDiffers (a_dt o) (a_dt n))].
  Definition range_course (n : array N) : list (bool * complaint) :=
    [(negb (existsb (fun v => v_ltb N v (v_zero N)) (a_data n)), SomeBelowZero); (negb (existsb (fun v => v_ltb N (v_one N) v) (a_data n)), SomeAboveOne)].
  Definition tree_course (o n : tr) : list (bool * complaint) := (check_structure o n, StructureDiffers) :: leaf_course 0 (leaves o) (leaves n).
  Definition course (s : st) (c : edit N) : list (bool * complaint) :=
    match c with
    | EProbabilities v => tensor_course (probabilities s) v ++ range_course v
    | EResiduals v => tensor_course (residuals s) v ++ range_course v
    | EIterations v => tensor_course (iterations s) v ++ [(check_natural v, SomeNotWhole)]
    | EEpsilon eps => [(s_leb N (s_zero N) eps, EpsilonLow); (s_leb N eps (s_one N), EpsilonHigh)]
    | EAccumulator name v | EDefaults name v =>
        (check_exists s name, NotDefined) :: match dget name (accumulators s) with Some t => tree_course t v | None => [] end
    | EUpdates name v =>
        (check_exists s name, NotDefined) :: match dget name (defaults s) with Some t => if is_none v then [] else tree_course t v | None => [] end
    end.

  (** *** The course is ordered and lists the complaints. *)
  Lemma leaf_course_in i os ns b x : In (b, x) (leaf_course i os ns) -> 2 + 2 * i <= rank x.
  Proof.
    revert i ns. induction os as [|o os IH]; intros i [|n ns]; cbn [leaf_course]; try (intros []; fail).
    intros [[= _ <-]|[[= _ <-]|I]]; cbn [rank]; [lia|lia|]. apply IH in I. lia.
  Qed.
  Lemma leaf_course_ordered i os ns : ordered rank (leaf_course i os ns).
  Proof.
    revert i ns. induction os as [|o os IH]; intros i [|n ns]; cbn [leaf_course]; try constructor.
    - apply ordered_cons with (b := true). split; [apply IH|]. intros b y I. apply leaf_course_in in I. cbn [rank]. lia.
    - cbn [map snd rank]. constructor; [lia|]. apply Forall_forall. intros k I. apply in_map_iff in I as ([b y] & <- & I). apply leaf_course_in in I. cbn [snd]. lia.
  Qed.
  Lemma course_ordered s c : ordered rank (course s c).
  Proof.
    assert (T : forall o n, ordered rank (tree_course o n)).
    { intros o n. apply ordered_cons. split; [apply leaf_course_ordered|]. intros b y I. apply leaf_course_in in I. cbn [rank]. lia. }
    assert (T' : forall o n b x, In (b, x) (tree_course o n) -> 0 < rank x).
    { intros o n b x [[= _ <-]|I]; [cbn; lia|]. apply leaf_course_in in I. lia. }
    destruct c; cbn [course tensor_course range_course app].
    1-4: unfold ordered; cbn; repeat (constructor; [|repeat constructor]); repeat constructor.
    - apply ordered_cons. split; destruct (dget _ _); [apply T|constructor|intros b y I; apply T' in I; cbn; lia|intros ? ? []].
    - apply ordered_cons. split; destruct (dget _ _); [apply T|constructor|intros b y I; apply T' in I; cbn; lia|intros ? ? []].
    - apply ordered_cons. split; (destruct (dget _ _); [destruct (is_none v)|]); try apply T; try constructor; try (intros ? ? []; fail).
      intros b y I; apply T' in I; cbn; lia.
  Qed.

  Lemma leaf_course_iff i os ns x : In (false, x) (leaf_course i os ns) <->
    exists j o n, nth_error os j = Some o /\ nth_error ns j = Some n /\
      ((x = LeafShape (i + j) (a_shape o) (a_shape n) /\ a_shape o <> a_shape n) \/ (x = LeafDtype (i + j) (a_dt o) (a_dt n) /\ a_dt o <> a_dt n)).
  Proof.
    revert i ns. induction os as [|o os IH]; intros i ns.
    - split; [intros []|]. intros (j & a & b & H & _). destruct j; discriminate.
    - destruct ns as [|n ns]; [split; [intros []|]; intros (j & a & b & _ & H & _); destruct j; discriminate|].
      cbn [leaf_course In]. rewrite IH. split.
      + intros [[= E <-]|[[= E <-]|(j & a & b & Ha & Hb & H)]].
        * exists 0, o, n. rewrite Nat.add_0_r. split; [reflexivity|]. split; [reflexivity|]. left. split; [reflexivity|]. intros X. unfold check_same_shape in E. rewrite X, shape_eqb_refl in E. discriminate.
        * exists 0, o, n. rewrite Nat.add_0_r. split; [reflexivity|]. split; [reflexivity|]. right. split; [reflexivity|]. intros X. unfold check_same_dtype in E. rewrite X, dtype_eqb_refl in E. discriminate.
        * exists (S j), a, b. replace (i + S j) with (S i + j) by lia. auto.
      + intros ([|j] & a & b & Ha & Hb & H).
        * cbn in Ha, Hb. injection Ha as ->. injection Hb as ->. rewrite Nat.add_0_r in H. destruct H as [[-> H]|[-> H]]; [left|right; left]; f_equal.
          -- unfold check_same_shape. destruct (shape_eqb _ _) eqn:E; [apply shape_eqb_eq in E; contradiction|reflexivity].
          -- unfold check_same_dtype. destruct (dtype_eqb _ _) eqn:E; [apply dtype_eqb_eq in E; contradiction|reflexivity].
        * right. right. exists j, a, b. replace (S i + j) with (i + S j) by lia. auto.
  Qed.
  Lemma tensor_course_iff o n x : In (false, x) (tensor_course o n) <-> tensor_complaint o n x.
  Proof.
    unfold tensor_course, check_same_shape, check_same_dtype. cbn [In]. split.
    - intros [[= E <-]|[[= E <-]|[]]]; (split; [reflexivity|split; [reflexivity|]]); intros X; rewrite X in E; [rewrite shape_eqb_refl in E|rewrite dtype_eqb_refl in E]; discriminate.
    - destruct x; cbn [tensor_complaint]; try (intros []; fail); intros (-> & -> & H); [left|right; left]; f_equal.
      + destruct (shape_eqb _ _) eqn:E; [apply shape_eqb_eq in E; contradiction|reflexivity].
      + destruct (dtype_eqb _ _) eqn:E; [apply dtype_eqb_eq in E; contradiction|reflexivity].
  Qed.
  Lemma existsb_negb {A} (f : A -> bool) l : negb (existsb f l) = false <-> exists v, In v l /\ f v = true.
  Proof. rewrite negb_false_iff. apply existsb_exists. Qed.
  Lemma range_course_iff n x : In (false, x) (range_course n) <-> range_complaint n x.
  Proof.
    unfold range_course. cbn [In]. split.
    - intros [E|[E|[]]]; injection E as E <-; now apply existsb_negb in E.
    - destruct x; cbn [range_complaint]; try (intros []; fail); intros H; [left|right; left]; f_equal; apply existsb_negb; exact H.
  Qed.
  Lemma tree_course_iff o n x : In (false, x) (tree_course o n) <-> tree_complaint o n x.
  Proof.
    unfold tree_course. cbn [In]. rewrite leaf_course_iff. split.
    - intros [[= E <-]|(j & a & b & Ha & Hb & [[-> H]|[-> H]])]; cbn [tree_complaint plus].
      + intros X. apply structure_equal_iff in X. unfold check_structure in E. congruence.
      + exists a, b. auto.
      + exists a, b. auto.
    - destruct x; cbn [tree_complaint]; try (intros []; fail).
      + intros H. left. f_equal. unfold check_structure. destruct (are_pytree_structure_equal o n) eqn:E; [|reflexivity]. apply structure_equal_iff in E. contradiction.
      + intros (a & b & Ha & Hb & -> & -> & H). right. exists i, a, b. auto.
      + intros (a & b & Ha & Hb & -> & -> & H). right. exists i, a, b. auto.
  Qed.
  Lemma exists_false (s : st) name : check_exists s name = false <-> dget name (defaults s) = None.
  Proof. unfold check_exists, dmem. destruct (dget name (defaults s)); split; congruence. Qed.
  Lemma course_iff s c x : In (false, x) (course s c) <-> justified s c x.
  Proof.
    destruct c; cbn [course justified].
    - now rewrite in_app_iff, tensor_course_iff, range_course_iff.
    - now rewrite in_app_iff, tensor_course_iff, range_course_iff.
    - rewrite in_app_iff, tensor_course_iff. cbn [In]. unfold check_natural. split; (intros [H|H]; [now left|right]).
      + destruct H as [H|[]]. injection H as E <-. split; [reflexivity|]. clear -E. induction (a_data v) as [|y l IH]; [discriminate|]. cbn in E. apply andb_false_iff in E as [E|E]; [exists y; cbn; auto|].
        destruct (IH E) as (n & I & H). exists n. cbn. auto.
      + destruct H as (-> & n & I & H). left. f_equal. destruct (forallb _ _) eqn:E; [|reflexivity]. rewrite forallb_forall in E. rewrite (E _ I) in H. discriminate.
    - cbn [In]. split.
      + intros [H|[H|[]]]; injection H as E <-; auto.
      + intros [[-> E]|[-> E]]; rewrite E; auto.
    - cbn [In]. rewrite <- exists_false. split.
      + intros [H|H]; [injection H as E <-; auto|]. right. destruct (dget name (accumulators s)) as [t|]; [|destruct H]. exists t. split; [reflexivity|]. now apply tree_course_iff.
      + intros [[-> E]|(t & E & H)]; [left; now rewrite E|]. right. rewrite E. now apply tree_course_iff.
    - cbn [In]. rewrite <- exists_false. split.
      + intros [H|H]; [injection H as E <-; auto|]. right. destruct (dget name (accumulators s)) as [t|]; [|destruct H]. exists t. split; [reflexivity|]. now apply tree_course_iff.
      + intros [[-> E]|(t & E & H)]; [left; now rewrite E|]. right. rewrite E. now apply tree_course_iff.
    - cbn [In]. rewrite <- exists_false. split.
      + intros [H|H]; [injection H as E <-; auto|]. right. destruct (dget name (defaults s)) as [t|]; [|destruct H]. destruct (is_none v); [destruct H|]. exists t. split; [reflexivity|]. split; [reflexivity|]. now apply tree_course_iff.
      + intros [[-> E]|(t & E & Z & H)]; [left; now rewrite E|]. right. rewrite E, Z. now apply tree_course_iff.
  Qed.

  (** *** The messages *)
  Lemma heading_ok c : printable str_scl c -> one_line (heading c) = true /\ begins (heading c).
  Proof.
    intros [P _]. destruct c; cbn [heading]; (split; [|cbn; intros [X|X]; discriminate]); try reflexivity.
    - rewrite !one_line_app. cbn in P. now rewrite P.
    - rewrite !one_line_app. cbn in P. now rewrite P.
  Qed.
  Ltac text_eq := unfold lines; cbn [map app String.concat append]; rewrite ?app_string_assoc; cbn [append]; rewrite ?app_string_assoc; reflexivity.
  Ltac fmt pre :=
    match goal with |- format_error_message ?m ?ctx = lines (?ctx :: shown (?l :: ?ls)) =>
      let E := fresh in assert (E : m = lines ("" :: map (append pre) (l :: ls) ++ [pre])) by text_eq; rewrite E; clear E;
      apply format_shown_b; [reflexivity|cbn; intros [Z|Z]; discriminate|reflexivity| |assumption|assumption]
    end; cbn [forallb]; rewrite ?one_line_app, ?one_line_str_shape, ?one_line_str_dtype, ?one_line_str_int; try reflexivity.
  Ltac steps P c := destruct (heading_ok c P); cbn [program_of]; repeat (apply f_equal3 with (f := @Check unit); [reflexivity| |]); try reflexivity;
    unfold MessagesSpec.message; cbn [explanation].
  Lemma same_shape_steps (o n : array N) c rest : printable str_scl c ->
    m_same_shape o n (heading c) rest = program_of (message c) [(check_same_shape o n, ShapeDiffers (a_shape o) (a_shape n))] rest.
  Proof. intros P. unfold m_same_shape. steps P c. fmt "        ". Qed.
  Lemma same_dtype_steps (o n : array N) c rest : printable str_scl c ->
    m_same_dtype o n (heading c) rest = program_of (message c) [(check_same_dtype o n, DtypeDiffers (a_dt o) (a_dt n))] rest.
  Proof. intros P. unfold m_same_dtype. steps P c. fmt "        ". Qed.
  Lemma probability_steps (n : array N) c rest : printable str_scl c -> m_probability n (heading c) rest = program_of (message c) (range_course n) rest.
  Proof. intros P. unfold m_probability, range_course. steps P c; fmt "        ". Qed.
  Lemma natural_steps (n : array N) c rest : printable str_scl c -> m_natural n (heading c) rest = program_of (message c) [(check_natural n, SomeNotWhole)] rest.
  Proof. intros P. unfold m_natural. steps P c; fmt "        ". Qed.
  Lemma exists_steps (s : st) c rest : printable str_scl c -> m_exists s (name_of c) (heading c) rest = program_of (message c) [(check_exists s (name_of c), NotDefined)] rest.
  Proof. intros P. unfold m_exists. steps P c; fmt "        ". destruct P as [P _]. rewrite P. reflexivity. Qed.
  Lemma structure_steps (o n : tr) c rest : printable str_scl c -> m_structure o n (heading c) rest = program_of (message c) [(check_structure o n, StructureDiffers)] rest.
  Proof. intros P. unfold m_structure. steps P c; fmt "           ". Qed.
  Lemma leaves_steps c rest : printable str_scl c -> forall os ns i, m_leaves i os ns (heading c) rest = program_of (message c) (leaf_course i os ns) rest.
  Proof.
    intros P. induction os as [|o os IH]; intros [|n ns] i; try reflexivity. cbn [m_leaves leaf_course]. rewrite (IH ns (S i)). steps P c; fmt "            ".
  Qed.
  Lemma tree_steps (o n : tr) c rest : printable str_scl c ->
    m_structure o n (heading c) (m_leaves 0 (leaves o) (leaves n) (heading c) rest) = program_of (message c) (tree_course o n) rest.
  Proof. intros P. now rewrite structure_steps, leaves_steps by exact P. Qed.
  Lemma tensor_steps (o n : array N) c rest : printable str_scl c ->
    m_same_shape o n (heading c) (m_same_dtype o n (heading c) rest) = program_of (message c) (tensor_course o n) rest.
  Proof. intros P. now rewrite same_shape_steps, same_dtype_steps by exact P. Qed.

  (** *** A setter in the mode "standard" *)
  Definition told (s : st) (c : edit N) (e' : editor N) : outcome (editor N) :=
    match first_false (course s c) with Some x => Throws JaxRuntimeError (Some (message c x)) | None => Gives e' end.
  Lemma execute_program (e : editor N) (cs : list (bool * complaint)) text : ed_mode e = "standard" ->
    m_execute e (program_of text cs (Return tt)) = match first_false cs with Some x => Throws JaxRuntimeError (Some (text x)) | None => Gives tt end.
  Proof.
    intros M. unfold m_execute, execute_validation_program. rewrite M. cbn [String.eqb]. rewrite (checkify_program (X := complaint)).
    cbn. destruct (first_false cs); reflexivity.
  Qed.
  Lemma stray_dec (s : st) (c : edit N) : stray_update s c \/ ~ stray_update s c.
  Proof. destruct c; cbn [stray_update]; try (right; tauto). destruct (dget name (defaults s)), (is_none v); [right|right|right|left]; intuition congruence. Qed.
  Lemma edit_stray (e : editor N) c : ed_mode e = "standard" -> printable str_scl c -> stray_update (ed_state e) c -> edit_aloud e c = Throws KeyError None.
  Proof.
    intros M P S. destruct c; try (destruct S; fail). destruct S as [D V]. cbn [MessagesSpec.edit_aloud]. unfold m_set_updates.
    unfold dlookup. rewrite D, V. pose proof (exists_steps (ed_state e) (EUpdates name v) (Raise KeyError) P) as X. cbn [heading name_of] in X. rewrite X.
    unfold m_execute, execute_validation_program. rewrite M. cbn [String.eqb]. rewrite (checkify_program_raise (X := complaint)). reflexivity.
  Qed.
  Lemma edit_told (e : editor N) c : ed_mode e = "standard" -> printable str_scl c -> ~ stray_update (ed_state e) c -> exists e', edit_aloud e c = told (ed_state e) c e'.
  Proof.
    intros M P S. unfold told. destruct c; cbn [MessagesSpec.edit_aloud course].
    - unfold m_set_probabilities. pose proof (tensor_steps (probabilities (ed_state e)) v (EProbabilities v)) as T. pose proof (probability_steps v (EProbabilities v)) as R.
      cbn [heading] in *. rewrite T, R, <- program_app, execute_program by assumption. destruct (first_false _); first [exists e; reflexivity|eexists; reflexivity].
    - unfold m_set_residuals. pose proof (tensor_steps (residuals (ed_state e)) v (EResiduals v)) as T. pose proof (probability_steps v (EResiduals v)) as R.
      cbn [heading] in *. rewrite T, R, <- program_app, execute_program by assumption. destruct (first_false _); first [exists e; reflexivity|eexists; reflexivity].
    - unfold m_set_iterations. pose proof (tensor_steps (iterations (ed_state e)) v (EIterations v)) as T. pose proof (natural_steps v (EIterations v)) as R.
      cbn [heading] in *. rewrite T, R, <- program_app, execute_program by assumption. destruct (first_false _); first [exists e; reflexivity|eexists; reflexivity].
    - unfold m_set_epsilon. destruct (heading_ok _ P) as [H1 H2]. destruct P as [_ P]. cbn [number_of] in P. cbn [heading] in H1, H2.
      rewrite !format_line; try assumption; try (rewrite !one_line_app; rewrite P; reflexivity); try (cbn; intros [Z|Z]; discriminate).
      change (Check (s_leb N (s_zero N) x) _ _) with
        (program_of (message (EEpsilon x)) [(s_leb N (s_zero N) x, EpsilonLow); (s_leb N x (s_one N), EpsilonHigh)] (Return tt)).
      rewrite execute_program by assumption. destruct (first_false _); first [exists e; reflexivity|eexists; reflexivity].
    - unfold m_set_accumulator, m_like_accumulator, dmem, dlookup. pose proof (exists_steps (ed_state e) (EAccumulator name v)) as X.
      destruct (dget name (accumulators (ed_state e))) as [t|]; pose proof (fun t => tree_steps t v (EAccumulator name v)) as T; cbn [heading name_of] in *.
      + rewrite T, X by assumption. rewrite <- program_app, execute_program by assumption. cbn [app]. destruct (first_false _); first [exists e; reflexivity|eexists; reflexivity].
      + rewrite X by assumption. rewrite execute_program by assumption. destruct (first_false _); first [exists e; reflexivity|eexists; reflexivity].
    - unfold m_set_defaults, m_like_accumulator, dmem, dlookup. pose proof (exists_steps (ed_state e) (EDefaults name v)) as X.
      destruct (dget name (accumulators (ed_state e))) as [t|]; pose proof (fun t => tree_steps t v (EDefaults name v)) as T; cbn [heading name_of] in *.
      + rewrite T, X by assumption. rewrite <- program_app, execute_program by assumption. cbn [app]. destruct (first_false _); first [exists e; reflexivity|eexists; reflexivity].
      + rewrite X by assumption. rewrite execute_program by assumption. destruct (first_false _); first [exists e; reflexivity|eexists; reflexivity].
    - unfold m_set_updates, dlookup. pose proof (exists_steps (ed_state e) (EUpdates name v)) as X. pose proof (fun t => tree_steps t v (EUpdates name v)) as T. cbn [heading name_of stray_update] in *.
      destruct (dget name (defaults (ed_state e))) as [t|], (is_none v).
      + rewrite X, execute_program by assumption. destruct (first_false _); first [exists e; reflexivity|eexists; reflexivity].
      + rewrite T, X by assumption. rewrite <- program_app, execute_program by assumption. cbn [app]. destruct (first_false _); first [exists e; reflexivity|eexists; reflexivity].
      + rewrite X, execute_program by assumption. destruct (first_false _); first [exists e; reflexivity|eexists; reflexivity].
      + exfalso. apply S. auto.
  Qed.
  Lemma told_throws s c e' e t : told s c e' = Throws e t <-> e = JaxRuntimeError /\ exists x, first_complaint s c x /\ t = Some (message c x).
  Proof.
    unfold told, first_complaint. pose proof (fun x => first_false_iff rank (course s c) x (course_ordered s c)) as F.
    assert (G : forall x, first_false (course s c) = Some x <-> justified s c x /\ forall y, justified s c y -> rank x <= rank y).
    { intros x. rewrite F, course_iff. split; intros [A B]; (split; [exact A|]); intros y Y; apply B; now apply course_iff. }
    destruct (first_false (course s c)) as [x|].
    - split; [intros [= <- <-]; split; [reflexivity|]; exists x; split; [now apply G|reflexivity]|]. intros (-> & y & Y & ->). apply G in Y. injection Y as ->. reflexivity.
    - split; [discriminate|]. intros (_ & y & Y & _). apply G in Y. discriminate.
  Qed.
  Lemma told_gives s c e' : (exists r, told s c e' = Gives r) <-> forall x, ~ justified s c x.
  Proof.
    unfold told. pose proof (first_false_none (course s c)) as F. destruct (first_false (course s c)) as [x|] eqn:E.
    - split; [intros [r H]; discriminate|]. intros H. exfalso. apply (proj1 (first_false_iff rank _ x (course_ordered s c))) in E as [E _]. apply course_iff in E. now apply (H x).
    - split; [|intros _; eauto]. intros _ x H. apply course_iff in H. now apply (proj1 F eq_refl x).
  Qed.
End Editors.
