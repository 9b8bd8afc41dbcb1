(** * Facts for C92 and C93: texts of layers, pytrees and operators *)
From Coq Require Import Ascii Lia.
From Verif Require Import Base BaseFacts PyTree PyTreeFacts Tensor TensorFacts Num Utils UtilsFacts States Controller ControllerFacts Builder Viewer Editor Checkify Layers Wf UtilsSpec LayerSpec.
From Verif Require Import Text TextSpec TextFacts PyStr Messages MessagesSpec MessagesFacts MessagesFacts4 Messages2 Messages2Spec.
Open Scope string_scope. Open Scope list_scope.

Ltac normal := do 4 (cbn [map app String.concat append]; rewrite ?app_string_assoc).

Section Contract.
  Context {N : numsys} (str_controller : string) (str_class : tree (array N) -> string).
  Notation st := (state N).
  Notation tr := (tree (array N)).
  Notation message := (breach_message str_controller).

  Lemma making_ok : one_line making = true /\ begins making.
  Proof. split; [reflexivity|cbn; intros [Z|Z]; discriminate]. Qed.
  Lemma iterating_ok : one_line iterating = true /\ begins iterating.
  Proof. split; [reflexivity|cbn; intros [Z|Z]; discriminate]. Qed.

  (** The complaint [x], raised with [context]. *)
  Definition accuse (context : string) (x : breach) : outcome unit := Throws (breach_exception x) (Some (message context x)).

  Lemma not_controller_says t context : plain_classes str_controller str_class -> one_line context = true -> begins context ->
    m_not_controller str_controller str_class t context = accuse context (NotAController (str_class t)).
  Proof.
    intros [P1 P2] O B. unfold m_not_controller, accuse. f_equal. f_equal. unfold breach_message. cbn [breach_explanation].
    rewrite <- (format_shown_b "            " ("Expected to be given a result of type " ++ str_controller ++ ". ") ["However, we instead got a result of type " ++ str_class t]%string context);
      try assumption; try reflexivity.
    - f_equal. unfold lines. normal. reflexivity.
    - cbn; intros [Z|Z]; discriminate.
    - cbn [forallb]. rewrite !one_line_app, P1, P2. reflexivity.
  Qed.
  Lemma not_tuple_says t context : plain_classes str_controller str_class -> one_line context = true -> begins context ->
    m_not_tuple str_class t context = accuse context (NotATuple (str_class t)).
  Proof.
    intros [P1 P2] O B. unfold m_not_tuple, accuse. f_equal. f_equal. unfold breach_message. cbn [breach_explanation].
    rewrite <- (format_shown_b "            " ("Expected to see tuple, but instead got type " ++ str_class t) []%string context);
      try assumption; try reflexivity.
    - cbn; intros [Z|Z]; discriminate.
    - cbn [forallb]. rewrite !one_line_app, P2. reflexivity.
  Qed.
  Lemma length_two_says l context : one_line context = true -> begins context ->
    m_length_two (N := N) l context = if Nat.eqb (length l) 2 then Gives tt else accuse context (WrongLength (length l)).
  Proof.
    intros O B. unfold m_length_two, complain, accuse. destruct (Nat.eqb (length l) 2); [reflexivity|]. f_equal. f_equal. unfold breach_message. cbn [breach_explanation].
    rewrite <- (format_shown_b "            " "Expected tuple collection to have length of two. Instead," ["it had length of " ++ str_int (length l)]%string context);
      try assumption; try reflexivity.
    - cbn; intros [Z|Z]; discriminate.
    - cbn [forallb]. rewrite !one_line_app, one_line_str_int. reflexivity.
  Qed.
  Lemma not_empty_says c : m_not_empty (N := N) c making = match accumulators c with [] => accuse making NoAccumulators | _ :: _ => Gives tt end.
  Proof. unfold m_not_empty, complain, accuse. destruct (accumulators c); [|reflexivity]. vm_compute. reflexivity. Qed.
  Lemma not_novel_says : m_not_novel iterating = accuse iterating SameController.
  Proof. vm_compute. reflexivity. Qed.
  Lemma all_committed_says c : m_all_committed (N := N) c iterating =
    if updates_ready_to_commit c then accuse iterating NeverCommitted else if has_cached_updates c then accuse iterating Incomplete else Gives tt.
  Proof.
    unfold m_all_committed, complain, accuse. destruct (updates_ready_to_commit c), (has_cached_updates c); vm_compute; reflexivity.
  Qed.
  Lemma ready_iff (c : st) : updates_ready_to_commit c = true <-> all_waiting c.
  Proof.
    unfold updates_ready_to_commit, all_waiting. rewrite forallb_forall. split.
    - intros H k u I. specialize (H _ I). cbn in H. now apply negb_true_iff in H.
    - intros H [k u] I. cbn. apply negb_true_iff. eauto.
  Qed.
  Lemma cached_iff (c : st) : has_cached_updates c = true <-> some_waiting c.
  Proof.
    unfold has_cached_updates, some_waiting. rewrite existsb_exists. split.
    - intros ([k u] & I & H). exists k, u. cbn in H. apply negb_true_iff in H. auto.
    - intros (k & u & I & H). exists (k, u). cbn. now rewrite H.
  Qed.

  (** What the two checks complain about. *)
  Definition course_made (m : made N) : option breach :=
    match m with MOther t => Some (NotAController (str_class t)) | MCtrl c => match accumulators c with [] => Some NoAccumulators | _ :: _ => None end end.
  Definition course_update (c : st) (r : ret N) : option breach :=
    match r with
    | ROther t => Some (NotATuple (str_class t))
    | RTuple l =>
        if Nat.eqb (length l) 2 then
          match l with
          | IObj t :: _ => Some (NotAController (str_class t))
          | ISame :: _ => Some SameController
          | _ => if updates_ready_to_commit c then Some NeverCommitted else if has_cached_updates c then Some Incomplete else None
          end
        else Some (WrongLength (length l))
    end.
  Definition accusation (context : string) (o : option breach) : outcome unit := match o with Some x => accuse context x | None => Gives tt end.
  Lemma made_says m : plain_classes str_controller str_class ->
    match m with MOther t => m_not_controller str_controller str_class t making | MCtrl c => m_not_empty c making end = accusation making (course_made m).
  Proof.
    intros P. destruct m as [c|t]; cbn [course_made].
    - rewrite not_empty_says. destruct (accumulators c); reflexivity.
    - rewrite not_controller_says; auto; apply making_ok.
  Qed.
  Lemma update_says c r : plain_classes str_controller str_class -> m_validate_update str_controller str_class c r = accusation iterating (course_update c r).
  Proof.
    intros P. destruct iterating_ok as [O B]. unfold m_validate_update. fold iterating. destruct r as [l|t]; cbn [course_update].
    - rewrite length_two_says by assumption. destruct (Nat.eqb_spec (length l) 2) as [E|E]; cbn [obind]; [|reflexivity].
      destruct l as [|[|c'|t] l]; [discriminate| | |].
      + apply not_novel_says.
      + rewrite all_committed_says. destruct (updates_ready_to_commit c), (has_cached_updates c); reflexivity.
      + rewrite not_controller_says; auto.
    - rewrite not_tuple_says; auto.
  Qed.
  Lemma course_made_iff m x : course_made m = Some x <-> made_breach str_class m x.
  Proof.
    destruct m as [c|t]; cbn [course_made].
    - destruct (accumulators c) as [|p a] eqn:E; split; intros H.
      + injection H as <-. cbn. eauto.
      + destruct x; cbn in H; try contradiction; [destruct H as (t & H & _); discriminate|]. reflexivity.
      + discriminate.
      + destruct x; cbn in H; try contradiction; [destruct H as (t & H & _); discriminate|]. destruct H as (c' & [= <-] & H). congruence.
    - split; intros H.
      + injection H as <-. cbn. eauto.
      + destruct x; cbn in H; try contradiction; [|destruct H as (c & H & _); discriminate]. destruct H as (t' & [= <-] & ->). reflexivity.
  Qed.
  Lemma two_components {A} (l : list A) : length l = 2 -> exists x y, l = [x; y].
  Proof. destruct l as [|x [|y [|z l]]]; try discriminate. eauto. Qed.
  Lemma course_update_iff c r x : course_update c r = Some x <->
    form_breach str_class r x \/ (exists c' y, r = RTuple [ICtrl c'; y]) /\ uncommitted c x.
  Proof.
    destruct r as [l|t]; cbn [course_update].
    - destruct (Nat.eqb_spec (length l) 2) as [E|E].
      + destruct (two_components l E) as (i & y & ->). split.
        * destruct i as [|c'|t]; intros H.
          -- injection H as <-. left. cbn. eauto.
          -- right. split; [eauto|]. destruct (updates_ready_to_commit c) eqn:R.
             ++ injection H as <-. cbn. now apply ready_iff.
             ++ destruct (has_cached_updates c) eqn:K; [|discriminate]. injection H as <-. cbn. rewrite <- ready_iff, <- cached_iff. split; congruence.
          -- injection H as <-. left. cbn. eauto.
        * intros [H|[(c' & y' & [= -> ->]) U]].
          -- destruct x; cbn in H; try contradiction.
             ++ destruct H as (t & y' & [= -> ->] & ->). reflexivity.
             ++ destruct H as (t & H & _). discriminate.
             ++ destruct H as (l & [= <-] & -> & H). contradiction.
             ++ destruct H as (y' & [= -> ->]). reflexivity.
          -- destruct x; cbn in U; try contradiction.
             ++ apply ready_iff in U. now rewrite U.
             ++ rewrite <- ready_iff, <- cached_iff in U. destruct U as [U V]. rewrite U. apply not_true_is_false in V. now rewrite V.
      + split.
        * intros [= <-]. left. cbn. eauto.
        * intros [H|[(c' & y & [= ->]) _]]; [|cbn in E; contradiction].
          destruct x; cbn in H; try contradiction.
          -- destruct H as (t & y & [= ->] & _). cbn in E. contradiction.
          -- destruct H as (t & H & _). discriminate.
          -- destruct H as (l' & [= <-] & -> & _). reflexivity.
          -- destruct H as (y & [= ->]). cbn in E. contradiction.
    - split.
      + intros [= <-]. left. cbn. eauto.
      + intros [H|[(c' & y & H) _]]; [|discriminate]. destruct x; cbn in H; try contradiction.
        * destruct H as (t' & y & H & _). discriminate.
        * destruct H as (t' & [= <-] & ->). reflexivity.
        * destruct H as (l & H & _). discriminate.
        * destruct H as (y & H). discriminate.
  Qed.

  Lemma make_without check l init dep :
    without_text (m_make_controller str_controller str_class check l init dep) = wrapped_make_controller check l init dep.
  Proof.
    unfold m_make_controller, wrapped_make_controller. destruct (l_make_controller l init dep) as [[c|t]|e]; cbn [silent obind bind]; [| |reflexivity].
    - destruct check; [|reflexivity]. unfold m_not_empty, complain, validate_made. destruct (accumulators c); reflexivity.
    - destruct check; reflexivity.
  Qed.
  Lemma update_without c r : without_text (m_validate_update str_controller str_class c r) = validate_update c r.
  Proof.
    unfold m_validate_update, validate_update. destruct r as [l|t]; [|reflexivity]. unfold m_length_two, complain.
    destruct (Nat.eqb (length l) 2); cbn [obind guard bind]; [|reflexivity]. destruct l as [|[|c'|t] l]; try reflexivity.
    unfold m_all_committed, complain, validate_all_committed. destruct (updates_ready_to_commit c), (has_cached_updates c); reflexivity.
  Qed.
  Lemma run_without check l c u : without_text (m_run_iteration str_controller str_class check l c u) = wrapped_run_iteration check l c u.
  Proof.
    unfold m_run_iteration, wrapped_run_iteration. destruct (l_run_iteration l c u) as [r|e]; cbn [silent obind bind]; [|reflexivity].
    destruct check; cbn [obind bind without_text]; [|reflexivity]. rewrite <- update_without.
    destruct (m_validate_update str_controller str_class c r); reflexivity.
  Qed.

  (** *** Different breaches read differently. *)
  Lemma explanation_tells x x' : lines (breach_explanation str_controller x) = lines (breach_explanation str_controller x') -> x = x'.
  Proof.
    intros E. destruct x, x'; unfold lines in E; cbn [breach_explanation shown map app String.concat append] in E; try discriminate E; try reflexivity.
    - cbn [append] in E. injection E as E. rewrite !app_string_assoc in E. apply append_cancel_l in E. cbn [append] in E. injection E as E. now apply append_cancel_r in E as ->.
    - injection E as E. now apply append_cancel_r in E as ->.
    - deeper E. reflexivity.
  Qed.
  Lemma breach_tells w w' x x' : one_line w = true -> one_line w' = true -> message w x = message w' x' -> w = w' /\ x = x'.
  Proof.
    intros O O' E. unfold breach_message in E.
    assert (X : forall y, exists l ls, breach_explanation str_controller y = l :: ls) by (intros []; do 2 eexists; reflexivity).
    destruct (X x) as (l & ls & Ex), (X x') as (l' & ls' & Ex'). rewrite Ex, Ex', !lines_cons in E. rewrite <- Ex, <- Ex' in E.
    apply line_cancel in E as [-> E]; [|assumption|assumption]. split; [reflexivity|]. now apply explanation_tells.
  Qed.
End Contract.

(** ** Texts whose lines are not indented *)
Lemma margin_flat ls : Forall (fun l => l = "" \/ begins l) ls -> (exists l, In l ls /\ l <> "") -> margin ls = "".
Proof.
  intros F (l & I & H). rewrite Forall_forall in F. destruct (F l I) as [->|B]; [contradiction|].
  destruct (margin_common ls) as (Bm & Pm & _). destruct (margin ls) as [|c m] eqn:E; [reflexivity|].
  assert (P : prefix_of (String c m) (("" ++ l)%string)) by (apply Pm; [exact I|now apply begins_not_blank]).
  apply blank_prefix_of_begins in P; [|exact Bm|exact B]. destruct P as [r E']. discriminate.
Qed.
Definition moved (l : string) : string := match l with EmptyString => l | _ => ("    " ++ l)%string end.
Lemma format_flat ls ctx : Forall (fun l => l = "" \/ begins l) ls -> forallb one_line ls = true -> (exists l, In l ls /\ l <> "") ->
  one_line ctx = true -> begins ctx -> format_error_message (lines ls) ctx = lines (ctx :: map moved ls).
Proof.
  intros F O X Oc Hc. rewrite <- (split_join (format_error_message _ ctx)), split_message.
  rewrite (dedent_one_line ctx Oc Hc), (split_line ctx) by now apply one_line_iff.
  rewrite split_indent by (cbn; intuition discriminate). rewrite split_dedent. unfold lines. change (String "010" "") with (String newline ""). rewrite <- !join_concat.
  rewrite !split_join_lines; [|destruct X as (l & I & _); destruct ls; [destruct I|discriminate]|].
  2:{ apply Forall_forall. intros l Hl. apply one_line_iff. rewrite forallb_forall in O. now apply O. }
  rewrite (margin_flat ls F X). cbn [app]. f_equal. f_equal. rewrite !map_map. clear -F. induction F as [|l ls H F IH]; [reflexivity|]. cbn [map]. f_equal; [|exact IH].
  rewrite (dedent_own "" l ltac:(constructor) H : dedent_line "" l = l). destruct H as [->|H]; [reflexivity|]. rewrite (begins_not_only_blanks l H). destruct l; [contradiction|reflexivity].
Qed.
Lemma dedent_shown pre ls tail : blank_line pre -> blank_line tail -> Forall (fun l => l = "" \/ begins l) ls -> forallb one_line ls = true ->
  (exists l, In l ls /\ l <> "") -> dedent (lines ("" :: map (append pre) ls ++ [tail])) = lines ("" :: ls ++ [""]).
Proof.
  intros Bp Bt F O X. rewrite dedent_lines. unfold lines. change (String "010" "") with (String newline ""). rewrite <- !join_concat.
  assert (Fo : Forall (fun l => ~ In newline (chars l)) ls).
  { apply Forall_forall. intros l Hl. apply one_line_iff. rewrite forallb_forall in O. now apply O. }
  rewrite !split_join_lines; [|discriminate|].
  2:{ constructor; [cbn; tauto|]. apply Forall_app. split; [|constructor; [now apply white_not_newline|constructor]].
      apply Forall_map. revert Fo. apply Forall_impl. intros l Hl. rewrite chars_app, in_app_iff. intros [Y|Y]; [now apply white_not_newline in Y|contradiction]. }
  rewrite (margin_is pre ls tail Bp Bt F X). f_equal. cbn [map]. f_equal. rewrite !map_app. f_equal.
  - rewrite map_map. clear -Bp F. induction F as [|l ls H F IH]; [reflexivity|]. cbn [map]. f_equal; [|exact IH]. now apply dedent_own.
  - cbn [map]. unfold dedent_line. now rewrite (proj2 (only_blanks_iff tail) Bt).
Qed.

(** ** Pytrees *)
Section Trees.
  Context (str_named : string -> string) (str_treedef : treedef -> string).
  Notation message := (mismatch_message str_named str_treedef).
  Definition broadcasting : string := "An issue occurred while trying to broadcast two pytrees together: ".
  Lemma broadcasting_ok : one_line broadcasting = true /\ begins broadcasting.
  Proof. split; [reflexivity|cbn; intros [Z|Z]; discriminate]. Qed.
  Definition object {A} (x : mismatch) : outcome A := Throws RuntimeError (Some (message x)).

  Lemma one_line_class n : plain_names str_named str_treedef -> one_line (class_text str_named n) = true.
  Proof. intros [P _]. destruct n; try reflexivity. apply P. Qed.
  Lemma over_tensor_says : message BranchOverTensor = format_error_message "
        Source tree was not broadcastable.
         
        Source tree had pytree branch node, at position target
        tree had tensor node. This is not allowed.
        
        Did you swap the order you gave your parameters?
        " broadcasting.
  Proof. vm_compute. reflexivity. Qed.
  Lemma keys_says ks1 : forall ks2, Forall (fun k => one_line k = true) ks1 -> Forall (fun k => one_line k = true) ks2 ->
    (m_keys ks1 ks2 broadcasting = Gives tt /\ keys_loop ks1 ks2 = true) \/
    (exists before k k' r r', ks1 = before ++ k :: r /\ ks2 = before ++ k' :: r' /\ k <> k' /\ m_keys ks1 ks2 broadcasting = object (KeyDiffers k k') /\ keys_loop ks1 ks2 = false).
  Proof.
    induction ks1 as [|k ks1 IH]; intros [|k' ks2] F F'; cbn [m_keys keys_loop]; auto.
    inversion F as [|? ? O F1]; subst. inversion F' as [|? ? O' F1']; subst. destruct (String.eqb_spec k k') as [->|E]; cbn [complain obind andb].
    - destruct (IH ks2 F1 F1') as [H|(before & a & b & r & r' & -> & -> & H)]; [auto|]. right. exists (k' :: before), a, b, r, r'. auto.
    - right. exists [], k, k', ks1, ks2. split; [reflexivity|]. split; [reflexivity|]. split; [exact E|]. split; [|reflexivity]. unfold object. f_equal. f_equal. unfold mismatch_message. cbn [mismatch_explanation].
      cbn [app]. rewrite <- (format_shown_b "                ");
        [ | reflexivity | cbn; intros [Z|Z]; discriminate | reflexivity | | apply broadcasting_ok | apply broadcasting_ok].
      + f_equal. unfold lines. normal. reflexivity.
      + cbn [forallb]. rewrite !one_line_app, O, O'. reflexivity.
  Qed.
  Lemma class_says n m k l : plain_names str_named str_treedef -> node_class_eqb n m = false -> m_descent str_named n k m l broadcasting = object (ClassDiffers n m).
  Proof.
    intros P E. unfold m_descent. rewrite E. cbn [complain obind]. unfold object. f_equal. f_equal. unfold mismatch_message. cbn [mismatch_explanation app].
    rewrite <- (format_shown_b "        ");
      [ | reflexivity | cbn; intros [Z|Z]; discriminate | reflexivity | | apply broadcasting_ok | apply broadcasting_ok].
    - f_equal. unfold lines. normal. reflexivity.
    - cbn [forallb]. rewrite !one_line_app, !one_line_class by exact P. reflexivity.
  Qed.
  Lemma count_says n m k l : node_class_eqb n m = true -> k <> l -> m_descent str_named n k m l broadcasting = object (CountDiffers k l).
  Proof.
    intros E D. unfold m_descent. rewrite E. apply Nat.eqb_neq in D. rewrite D. cbn [complain obind]. unfold object. f_equal. f_equal. unfold mismatch_message. cbn [mismatch_explanation app].
    rewrite <- (format_shown_b "        ");
      [ | reflexivity | cbn; intros [Z|Z]; discriminate | reflexivity | | apply broadcasting_ok | apply broadcasting_ok].
    - f_equal. unfold lines. normal. reflexivity.
    - cbn [forallb]. rewrite !one_line_app, !one_line_str_int. reflexivity.
  Qed.
  Definition child_text (i : nat) (src tgt : treedef) : string :=
    (dedent ("
            Issue occurred between trees on child " ++ str_int i ++ " of the following
            pytrees.
            ") ++ "
On source pytree: 
{" ++ str_treedef src ++ "} 
" ++ "
On target pytree: 
{" ++ str_treedef tgt ++ "}")%string.
  Lemma child_says i src tgt : plain_names str_named str_treedef -> format_error_message (child_text i src tgt) broadcasting = message (InChild i src tgt).
  Proof.
    intros [_ P]. unfold child_text.
    assert (D : dedent ("
            Issue occurred between trees on child " ++ str_int i ++ " of the following
            pytrees.
            ") = lines [""; ("Issue occurred between trees on child " ++ str_int i ++ " of the following")%string; "pytrees."; ""]).
    { etransitivity; [|apply (dedent_shown "            " [("Issue occurred between trees on child " ++ str_int i ++ " of the following")%string; "pytrees."] "            ")].
      - f_equal. unfold lines. normal. reflexivity.
      - now apply only_blanks_iff.
      - now apply only_blanks_iff.
      - constructor; [right; cbn; intros [Z|Z]; discriminate|]. constructor; [right; cbn; intros [Z|Z]; discriminate|constructor].
      - cbn [forallb]. rewrite !one_line_app, one_line_str_int. reflexivity.
      - eexists. split; [right; left; reflexivity|discriminate]. }
    rewrite D. clear D. unfold mismatch_message. cbn [mismatch_explanation].
    transitivity (format_error_message (lines [""; ("Issue occurred between trees on child " ++ str_int i ++ " of the following")%string; "pytrees."; "";
      "On source pytree: "; ("{" ++ str_treedef src ++ "} ")%string; ""; "On target pytree: "; ("{" ++ str_treedef tgt ++ "}")%string]) broadcasting).
    - f_equal. unfold lines. normal. reflexivity.
    - rewrite format_flat; [reflexivity| | | |apply broadcasting_ok|apply broadcasting_ok].
      + repeat (constructor; [first [left; reflexivity | right; cbn; intros [Z|Z]; discriminate]|]). constructor.
      + cbn [forallb]. rewrite !one_line_app, one_line_str_int, !P. reflexivity.
      + exists "pytrees.". split; [cbn; tauto|discriminate].
  Qed.

  (** *** Nothing but a text has been added. *)
  Lemma keys_without ks1 : forall ks2, without_text (m_keys ks1 ks2 broadcasting) = guard (keys_loop ks1 ks2) RuntimeError.
  Proof.
    induction ks1 as [|k ks1 IH]; intros [|k' ks2]; cbn [m_keys keys_loop]; try reflexivity. unfold complain. destruct (String.eqb k k'); cbn [obind andb]; [apply IH|reflexivity].
  Qed.
  Lemma descent_without n k m l : without_text (m_descent str_named n k m l broadcasting) = validate_children_descent n k m l.
  Proof.
    unfold m_descent, validate_children_descent, complain. destruct (node_class_eqb n m); cbn [obind guard bind]; [|reflexivity].
    destruct (Nat.eqb k l); cbn [obind guard bind]; [apply keys_without|reflexivity].
  Qed.
  Lemma children_without {L} src tgt cs : forall i ds (q : list L), without_text (m_children str_treedef src tgt i cs ds q broadcasting) = replicate_list cs ds q.
  Proof.
    induction cs as [|c cs IH]; intros i [|d ds] q; cbn [m_children replicate_list]; try reflexivity.
    destruct (replicate_leaves c d q) as [[u q1]|e]; cbn [rewrap bind]; [|reflexivity]. specialize (IH (S i) ds q1). fold (@replicate_list L). rewrite <- IH.
    destruct (m_children str_treedef src tgt (S i) cs ds q1 broadcasting) as [[r q2]|e t]; reflexivity.
  Qed.
  Lemma without_obind {A B} (o : outcome A) (f : A -> outcome B) : without_text (obind o f) = bind (without_text o) (fun a => without_text (f a)).
  Proof. destruct o; reflexivity. Qed.
  Lemma replicate_without {L} src tgt (q : list L) : without_text (m_replicate str_named str_treedef src tgt q broadcasting) = replicate_leaves src tgt q.
  Proof.
    unfold m_replicate. destruct (treedef_is_leaf src) eqn:E1; [destruct (replicate_leaves src tgt q) as [[]|]; reflexivity|].
    destruct src as [|n [|c cs]]; try discriminate E1. destruct tgt as [|m [|d ds]]; try reflexivity. cbn [treedef_is_leaf].
    rewrite replicate_Node by discriminate. rewrite without_obind, descent_without. destruct (validate_children_descent _ _ _ _); [|reflexivity]. cbn [bind]. apply children_without.
  Qed.
  Lemma broadcast_without {L M} (source : tree L) (target : tree M) : without_text (m_broadcast str_named str_treedef source target) = broadcast_pytree_shape source target.
  Proof.
    unfold m_broadcast, broadcast_pytree_shape. fold broadcasting. rewrite without_obind, replicate_without. destruct (replicate_leaves _ _ _) as [[f r]|e]; [|reflexivity]. cbn [bind].
    unfold complain. destruct (Nat.eqb (length f) _); [|reflexivity]. destruct (Nat.eqb (length r) 0); [|reflexivity]. cbn [obind guard bind]. destruct (unflatten _ _); reflexivity.
  Qed.

  (** *** The first thing that is wrong *)
  Lemma class_eqb_iff n m : node_class_eqb n m = true <-> same_class n m.
  Proof. destruct n, m; cbn; try (split; [discriminate|intros []]); try tauto. apply String.eqb_eq. Qed.
  Lemma keys_wf n k : node_wf n k = true -> keys n <> [] -> length (keys n) = k.
  Proof. destruct n; cbn; try congruence. intros H _. apply andb_true_iff in H as [H _]. now apply Nat.eqb_eq in H. Qed.
  Lemma children_says {L M} src tgt (q : list L) cs : plain_names str_named str_treedef -> forall i (ds : list (tree M)), length cs = length ds ->
    Forall (fun c => tree_wf c = true) cs -> Forall (fun c => tree_wf c = true) ds ->
    (exists out, m_children str_treedef src tgt i (map structure cs) (map structure ds) (flat_map leaves cs ++ q) broadcasting = Gives (out, q) /\
       forall j s t, nth_error cs j = Some s -> nth_error ds j = Some t -> ~ clash s t) \/
    (exists j s t, m_children str_treedef src tgt i (map structure cs) (map structure ds) (flat_map leaves cs ++ q) broadcasting = object (InChild (i + j) src tgt) /\
       nth_error cs j = Some s /\ nth_error ds j = Some t /\ clash s t /\
       forall j' s' t', j' < j -> nth_error cs j' = Some s' -> nth_error ds j' = Some t' -> ~ clash s' t').
  Proof.
    intros P. revert q. induction cs as [|c cs IH]; intros q i [|d ds] El Wc Wd; try discriminate.
    - left. exists []. split; [reflexivity|]. intros [|j] s t H; discriminate.
    - injection El as El. inversion Wc as [|? ? W1 W2]; subst. inversion Wd as [|? ? V1 V2]; subst. cbn [map flat_map m_children]. rewrite <- app_assoc.
      destruct (replicate_char c d W1 V1) as [(o & G & E)|[G E]]; rewrite E.
      + assert (N0 : ~ clash c d) by (rewrite clash_iff; intros H; now apply (H o)). destruct (IH q (S i) ds El W2 V2) as [(out & Eo & H)|(j & s & t & Eo & Hs & Ht & C & H)]; rewrite Eo; cbn [obind].
        * left. exists (o ++ out). split; [reflexivity|]. intros [|j] s t; cbn; [intros [= <-] [= <-]; exact N0|apply H].
        * right. exists (S j), s, t. split; [unfold object; now rewrite Nat.add_succ_r|]. split; [exact Hs|]. split; [exact Ht|]. split; [exact C|].
          intros [|j'] s' t' Hj; cbn; [intros [= <-] [= <-]; exact N0|apply H; lia].
      + right. exists 0, c, d. split; [|split; [reflexivity|split; [reflexivity|split; [now apply clash_iff|intros j' s' t' Hj; lia]]]].
        rewrite Nat.add_0_r. unfold object. f_equal. f_equal. exact (child_says i src tgt P).
  Qed.
  Lemma contents_dec {L} (t : tree L) : (exists n c cs, t = Node n (c :: cs)) \/ (treedef_is_leaf (structure t) = true /\ ~ has_contents t).
  Proof.
    destruct t as [x|n [|c cs]]; [right|right|left; eauto]; (split; [reflexivity|]); intros (m & c & cs & E); discriminate.
  Qed.
  (** Either the replication succeeds and nothing is wrong, or it raises with the first thing that is wrong. *)
  Theorem replicate_says {L M} (S : tree L) (T : tree M) : plain_names str_named str_treedef -> tree_wf S = true -> tree_wf T = true ->
    (forall n cs, S = Node n cs -> plain_keys n) -> (forall n cs, T = Node n cs -> plain_keys n) ->
    (exists out, m_replicate str_named str_treedef (structure S) (structure T) (leaves S) broadcasting = Gives (out, []) /\ gives S T out) \/
    (exists x, m_replicate str_named str_treedef (structure S) (structure T) (leaves S) broadcasting = object x /\ first_mismatch S T x).
  Proof.
    intros P WS WT PS PT. unfold m_replicate. destruct (contents_dec S) as [(n & c & cs & ->)|[E H]].
    2:{ left. rewrite E. destruct (replicate_char S T WS WT) as [(out & G & R)|[G R]]; specialize (R []); rewrite app_nil_r in R; rewrite R; [exists out; auto|].
        exfalso. destruct S as [x|n [|c cs]]; [eapply G; constructor|eapply G; constructor|discriminate E]. }
    assert (HS : has_contents (Node n (c :: cs))) by (do 3 eexists; reflexivity).
    change (treedef_is_leaf (structure (Node n (c :: cs)))) with false. cbn [orb]. destruct (contents_dec T) as [(m & d & ds & ->)|[E H]].
    2:{ right. rewrite E. exists BranchOverTensor. split; [|split; assumption]. unfold object. rewrite over_tensor_says. reflexivity. }
    change (treedef_is_leaf (structure (Node m (d :: ds)))) with false. cbn iota.
    change (structure (Node n (c :: cs))) with (Node n (map structure (c :: cs))). change (structure (Node m (d :: ds))) with (Node m (map structure (d :: ds))). cbn iota. rewrite !map_length.
    pose proof WS as WS'. pose proof WT as WT'. apply tree_wf_Node in WS' as [Wn Wc], WT' as [Wm Wd].
    destruct (node_class_eqb n m) eqn:C.
    2:{ right. exists (ClassDiffers n m). rewrite class_says by assumption. split; [reflexivity|]. split; [exact HS|]. exists (c :: cs), (d :: ds).
        split; [reflexivity|]. split; [reflexivity|]. split; [discriminate|]. rewrite <- class_eqb_iff. congruence. }
    pose proof C as C'. apply class_eqb_iff in C'. destruct (Nat.eq_dec (length (c :: cs)) (length (d :: ds))) as [El|El].
    2:{ right. exists (CountDiffers (length (c :: cs)) (length (d :: ds))). rewrite count_says by assumption. split; [reflexivity|]. split; [exact HS|].
        exists n, m, (c :: cs), (d :: ds). repeat (split; [first [reflexivity | assumption | discriminate]|]); try assumption. }
    unfold m_descent. rewrite C, El, Nat.eqb_refl. cbn [complain obind].
    destruct (keys_says (keys n) (keys m) (PS _ _ eq_refl) (PT _ _ eq_refl)) as [[K K']|(before & k & k' & r & r' & E1 & E2 & D & K & _)].
    2:{ right. exists (KeyDiffers k k'). change (node_keys n) with (keys n). change (node_keys m) with (keys m). rewrite K. split; [reflexivity|]. split; [exact HS|].
        exists n, m, (c :: cs), (d :: ds), before, r, r'. auto 10. }
    change (node_keys n) with (keys n). change (node_keys m) with (keys m). rewrite K. cbn [obind].
    assert (n = m) as <-.
    { destruct n as [| | |ks1|c1], m as [| | |ks2|c2]; cbn in C'; try contradiction; try reflexivity; [|congruence]. cbn in K', Wn, Wm. apply andb_true_iff in Wn as [Wn _], Wm as [Wm _].
      apply Nat.eqb_eq in Wn, Wm. apply keys_loop_eq in K'; [congruence|]. cbn in El. congruence. }
    destruct (children_says (structure (Node n (c :: cs))) (structure (Node n (d :: ds))) [] (c :: cs) P 0 (d :: ds) El Wc Wd) as [(out & E & H)|(j & s & t & E & Hs & Ht & Cl & H)];
      rewrite app_nil_r in E; cbn [leaves]; rewrite !structure_Node in E; rewrite E.
    - left. exists out. split; [reflexivity|]. destruct (replicate_char _ _ WS WT) as [(out' & G & R)|[G R]].
      + specialize (R []). rewrite app_nil_r in R. rewrite <- replicate_without in R. unfold m_replicate in R.
        change (treedef_is_leaf (structure (Node n (c :: cs)))) with false in R. change (treedef_is_leaf (structure (Node n (d :: ds)))) with false in R. cbn iota in R.
        rewrite !structure_Node in R. cbn iota in R. unfold m_descent in R. rewrite !map_length, C, El, Nat.eqb_refl in R. cbn [complain obind] in R.
        change (node_keys n) with (keys n) in R. rewrite K in R. cbn [obind leaves] in R. rewrite E in R. injection R as <-. exact G.
      + exfalso. apply clash_iff in G. inversion G as [|? ? ? ? ? [X|X]|? ? ? ? i x y Hx Hy Cl]; subst; [contradiction|contradiction|]. exact (H i x y Hx Hy Cl).
    - right. exists (InChild j (structure (Node n (c :: cs))) (structure (Node n (d :: ds)))). split; [reflexivity|]. split; [exact HS|]. split; [reflexivity|]. split; [reflexivity|].
      exists n, (c :: cs), (d :: ds), s, t. repeat (split; [first [reflexivity | assumption]|]). exact H.
  Qed.
End Trees.

Section Trees2.
  Context (str_named : string -> string) (str_treedef : treedef -> string).
  Notation message := (mismatch_message str_named str_treedef).

  Lemma mismatch_clash {L M} (S : tree L) (T : tree M) x : first_mismatch S T x -> clash S T.
  Proof.
    intros [(n & c & cs & ->) H]. destruct x as [|n' m|a b|k k'|i a b].
    - destruct T as [y|m [|d ds]]; [constructor|constructor; right; discriminate|]. exfalso. apply H. do 3 eexists. reflexivity.
    - destruct H as (cs' & ds & [= <- <-] & -> & _ & D). constructor. left. intros ->. apply D. destruct m; cbn; auto.
    - destruct H as (n' & m & cs' & ds & [= <- <-] & -> & _ & _ & -> & -> & D). constructor. now right.
    - destruct H as (n' & m & cs' & ds & before & r & r' & [= <- <-] & -> & C & El & E1 & E2 & D). constructor. left. intros ->. rewrite E1 in E2. apply app_inv_head in E2. congruence.
    - destruct H as (_ & _ & n' & cs' & ds & s & t & [= <- <-] & -> & _ & Hs & Ht & C & _). econstructor; eassumption.
  Qed.
  Lemma first_key b : forall b' (k l k' l' : string) r s r' s', b ++ k :: r = b' ++ k' :: r' -> b ++ l :: s = b' ++ l' :: s' -> k <> l -> k' <> l' -> k = k' /\ l = l'.
  Proof.
    induction b as [|x b IH]; intros [|x' b'] k l k' l' r s r' s' E1 E2 D D'; cbn in E1, E2.
    - injection E1 as -> _. injection E2 as -> _. auto.
    - injection E1 as -> _. injection E2 as -> _. contradiction.
    - injection E1 as -> _. injection E2 as -> _. contradiction.
    - injection E1 as -> E1. injection E2 as E2. eauto.
  Qed.
  Lemma mismatch_fun {L M} (S : tree L) (T : tree M) x y : first_mismatch S T x -> first_mismatch S T y -> x = y.
  Proof.
    assert (R : forall n, same_class n n) by (intros []; cbn; auto).
    intros [(n & c & cs & ->) H] [_ K]. destruct x as [|n1 m1|a b|k k'|i a b], y as [|n2 m2|a2 b2|k2 k2'|i2 a2 b2]; try reflexivity.
    all: repeat match goal with
      | H : exists _, _ |- _ => destruct H
      | H : _ /\ _ |- _ => destruct H
      | H : Node _ _ = Node _ _ |- _ => injection H as ? ?
      | H : ?t = Node _ _ |- _ => is_var t; subst t
      end; subst.
    all: try (exfalso; match goal with H : ~ has_contents (Node ?m ?ds) |- _ => destruct ds; [congruence || discriminate|apply H; do 3 eexists; reflexivity] end).
    all: try contradiction.
    all: try reflexivity.
    all: try (exfalso; match goal with H : ~ same_class ?n ?n |- _ => apply H, R end).
    all: try congruence.
    - match goal with E1 : keys _ = ?b ++ _, E2 : keys _ = ?b' ++ _, F1 : keys _ = ?b ++ _, F2 : keys _ = ?b' ++ _ |- _ => idtac end.
      match goal with
      | E1 : keys ?n = ?b ++ k :: ?r, F1 : keys ?m = ?b ++ k' :: ?s, E2 : keys ?n = ?b' ++ k2 :: ?r', F2 : keys ?m = ?b' ++ k2' :: ?s' |- _ =>
          destruct (first_key b b' k k' k2 k2' r s r' s') as [-> ->]; congruence
      end.
    - exfalso. match goal with E1 : keys ?n = ?b ++ k :: ?r, F1 : keys ?n = ?b ++ k' :: ?s |- _ => rewrite E1 in F1; apply app_inv_head in F1; congruence end.
    - exfalso. match goal with E1 : keys ?n = ?b ++ k2 :: ?r, F1 : keys ?n = ?b ++ k2' :: ?s |- _ => rewrite E1 in F1; apply app_inv_head in F1; congruence end.
    - f_equal. destruct (Nat.lt_trichotomy i i2) as [Hl|[Hl|Hl]]; [|exact Hl|]; exfalso; match goal with H : forall j s t, _ |- _ => eapply H; eassumption end.
  Qed.

  Lemma segment p a b s t : one_line a = true -> one_line b = true -> one_line p = true ->
    (a ++ (p ++ String "010"%char s))%string = (b ++ (p ++ String "010"%char t))%string -> a = b /\ s = t.
  Proof.
    intros A B P E. rewrite <- !app_string_assoc in E. apply line_cancel in E as [E ->]; [|rewrite one_line_app, A; exact P|rewrite one_line_app, B; exact P].
    split; [now apply append_cancel_r in E|reflexivity].
  Qed.
  Lemma number_not_a n s r : (str_int n ++ s)%string <> String "a"%char r.
  Proof.
    unfold str_int. destruct (Nat.to_uint n) eqn:E; cbn; try discriminate. pose proof E as F. apply (f_equal Nat.of_uint) in F. rewrite DecimalNat.Unsigned.of_to in F.
    cbn in F. subst n. discriminate.
  Qed.
  Lemma mismatch_tells x y : plain_names str_named str_treedef -> plain_mismatch x -> plain_mismatch y -> message x = message y -> reads_same str_named str_treedef x y.
  Proof.
    intros [P1 P2] Px Py E. unfold mismatch_message, lines in E.
    assert (Pc : forall n, one_line (class_text str_named n) = true) by (intros []; try reflexivity; apply P1).
    destruct x, y; cbn [mismatch_explanation shown map app String.concat append] in E; cbn [reads_same]; try exact I; try discriminate E.
    - injection E as E. rewrite !app_string_assoc in E. apply (segment "." _ _ _ _ (Pc _) (Pc _)) in E as [E1 E]; [|reflexivity].
      split; [exact E1|]. cbn [append] in E. injection E as E. now apply append_cancel_r in E.
    - injection E as E. rewrite !app_string_assoc in E. exfalso. symmetry in E. exact (number_not_a _ _ _ E).
    - injection E as E. rewrite !app_string_assoc in E. exfalso. exact (number_not_a _ _ _ E).
    - deeper E. auto.
    - destruct Px as [Q1 Q2], Py as [Q1' Q2']. injection E as E. rewrite !app_string_assoc in E. apply (segment "'," _ _ _ _ Q1 Q1') in E as [E1 E]; [|reflexivity].
      split; [exact E1|]. cbn [append] in E. injection E as E. now apply append_cancel_r in E.
    - injection E as E. rewrite !app_string_assoc in E. apply str_int_cancel in E as [E1 E]; [|cbn; intuition discriminate|cbn; intuition discriminate].
      split; [exact E1|]. cbn [append] in E. injection E as E. rewrite ?app_string_assoc in E. apply (segment "} " _ _ _ _ (P2 _) (P2 _)) in E as [E2 E]; [|reflexivity].
      split; [exact E2|]. cbn [append] in E. injection E as E. now apply append_cancel_r in E.
  Qed.
End Trees2.
