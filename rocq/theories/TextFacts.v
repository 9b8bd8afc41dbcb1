(** * Proofs: texts *)
From Coq Require Import Ascii Lia.
From Verif Require Import Base Text TextSpec.
Open Scope string_scope. Open Scope list_scope.

Lemma app_string_assoc (a b c : string) : ((a ++ b) ++ c)%string = (a ++ b ++ c)%string.
Proof. induction a as [|x a IH]; cbn; congruence. Qed.
Lemma chars_app (a b : string) : chars (a ++ b)%string = chars a ++ chars b.
Proof. induction a as [|x a IH]; cbn; congruence. Qed.

(** ** Lines *)
Lemma split_not_nil s : split_lines s <> [].
Proof. destruct s as [|c s]; [discriminate|]. cbn. destruct (Ascii.eqb c newline); [discriminate|]. destruct (split_lines s); discriminate. Qed.
Lemma join_concat ls : join_lines ls = String.concat (String newline EmptyString) ls.
Proof. induction ls as [|l [|l' ls] IH]; [reflexivity|reflexivity|]. cbn [join_lines String.concat] in *. now rewrite IH. Qed.
Lemma join_cons_char c l ls : join_lines (String c l :: ls) = String c (join_lines (l :: ls)).
Proof. destruct ls; reflexivity. Qed.
Lemma split_join s : join_lines (split_lines s) = s.
Proof.
  induction s as [|c s IH]; [reflexivity|]. cbn [split_lines]. pose proof (split_not_nil s) as Nn. destruct (Ascii.eqb c newline) eqn:E.
  - apply Ascii.eqb_eq in E. subst c. destruct (split_lines s) as [|l ls]; [congruence|].
    change (join_lines (EmptyString :: l :: ls)) with (String newline (join_lines (l :: ls))). now rewrite IH.
  - destruct (split_lines s) as [|l ls]; [congruence|]. rewrite join_cons_char. now rewrite IH.
Qed.
Lemma split_no_newline s : Forall (fun l => ~ In newline (chars l)) (split_lines s).
Proof.
  induction s as [|c s IH]; [repeat constructor; auto|]. cbn [split_lines]. destruct (Ascii.eqb c newline) eqn:E; [constructor; auto|].
  apply Ascii.eqb_neq in E. destruct (split_lines s) as [|l ls]; inversion IH; subst; repeat constructor; auto; cbn; intros [X|X]; auto.
Qed.
Lemma split_line l : ~ In newline (chars l) -> split_lines l = [l].
Proof.
  induction l as [|c l IH]; [reflexivity|]. cbn. intros H. destruct (Ascii.eqb c newline) eqn:E; [apply Ascii.eqb_eq in E; tauto|]. rewrite IH; tauto.
Qed.
Lemma split_app l s : ~ In newline (chars l) -> split_lines (l ++ String newline s)%string = l :: split_lines s.
Proof.
  induction l as [|c l IH]; [reflexivity|]. cbn. intros H. destruct (Ascii.eqb c newline) eqn:E; [apply Ascii.eqb_eq in E; tauto|]. rewrite IH; tauto.
Qed.
Lemma split_join_lines ls : ls <> [] -> Forall (fun l => ~ In newline (chars l)) ls -> split_lines (join_lines ls) = ls.
Proof.
  intros Nn F. induction F as [|l ls Hl F IH]; [congruence|]. destruct ls as [|l' ls]; [now apply split_line|].
  change (join_lines (l :: l' :: ls)) with (l ++ String newline (join_lines (l' :: ls)))%string. rewrite split_app by assumption. f_equal. apply IH. discriminate.
Qed.
Lemma are_lines_split s : are_lines (split_lines s) s.
Proof.
  split; [|split; [apply split_not_nil|apply split_no_newline]]. rewrite <- (split_join s) at 1. apply join_concat.
Qed.
Lemma are_lines_unique ls s : are_lines ls s -> ls = split_lines s.
Proof. intros (E & Nn & F). rewrite E. change (String "010"%char EmptyString) with (String newline EmptyString). rewrite <- join_concat. symmetry. now apply split_join_lines. Qed.
Lemma join_app a b : a <> [] -> b <> [] -> join_lines (a ++ b) = (join_lines a ++ String newline (join_lines b))%string.
Proof.
  intros A B. induction a as [|l a IH]; [congruence|]. destruct a as [|l' a].
  - cbn [app]. destruct b; [congruence|reflexivity].
  - change ((l :: l' :: a) ++ b) with (l :: (l' :: a) ++ b). change (join_lines (l :: l' :: a)) with (l ++ String newline (join_lines (l' :: a)))%string.
    change (join_lines (l :: (l' :: a) ++ b)) with (l ++ String newline (join_lines ((l' :: a) ++ b)))%string. rewrite IH by discriminate.
    rewrite app_string_assoc. reflexivity.
Qed.

(** ** Blanks and prefixes *)
Lemma blank_char_iff c : is_blank_char c = true <-> white c.
Proof. unfold is_blank_char, white. rewrite orb_true_iff, !Ascii.eqb_eq. tauto. Qed.
Lemma only_blanks_iff l : only_blanks l = true <-> blank_line l.
Proof.
  unfold blank_line. induction l as [|c l IH]; cbn; [split; auto|]. rewrite andb_true_iff, blank_char_iff, IH. split; [intros []; auto|intros H; inversion H; auto].
Qed.
Lemma strip_prefix_iff p l r : strip_prefix p l = Some r <-> l = (p ++ r)%string.
Proof.
  revert l. induction p as [|c p IH]; intros l; [cbn; split; congruence|]. destruct l as [|d l]; [cbn; split; discriminate|]. cbn.
  destruct (Ascii.eqb c d) eqn:E.
  - apply Ascii.eqb_eq in E. subst d. rewrite IH. split; congruence.
  - apply Ascii.eqb_neq in E. split; [discriminate|congruence].
Qed.
Definition prefix_of (p l : string) : Prop := exists r, l = (p ++ r)%string.
Lemma starts_with_iff l p : starts_with l p = true <-> prefix_of p l.
Proof.
  unfold starts_with, prefix_of. destruct (strip_prefix p l) as [r|] eqn:E; [apply strip_prefix_iff in E; split; eauto|].
  split; [discriminate|]. intros [r H]. apply strip_prefix_iff in H. congruence.
Qed.
Lemma prefix_trans a b c : prefix_of a b -> prefix_of b c -> prefix_of a c.
Proof. intros [x ->] [y ->]. exists (x ++ y)%string. apply app_string_assoc. Qed.
Lemma prefix_refl a : prefix_of a a. Proof. exists EmptyString. induction a; cbn; congruence. Qed.
Lemma prefix_white p l : prefix_of p l -> blank_line l -> blank_line p.
Proof. intros [r ->]. unfold blank_line. rewrite chars_app, Forall_app. tauto. Qed.
Lemma until_left m i : prefix_of (until_different m i) m.
Proof.
  revert i. induction m as [|x m IH]; intros [|y i]; cbn [until_different]; try apply prefix_refl.
  destruct (Ascii.eqb x y); [|now exists (String x m)]. destruct (IH i) as [r E]. exists r. cbn. now rewrite <- E.
Qed.
Lemma until_right m i : ~ prefix_of i m -> prefix_of (until_different m i) i.
Proof.
  revert i. induction m as [|x m IH]; intros [|y i]; cbn [until_different]; intros H; [apply prefix_refl|now exists (String y i)|exfalso; apply H; now exists (String x m)|].
  destruct (Ascii.eqb x y) eqn:E; [|now exists (String y i)]. apply Ascii.eqb_eq in E. subst y.
  destruct (IH i) as [r Er]; [intros [r Hr]; apply H; exists r; cbn; now rewrite Hr|]. exists r. cbn. now rewrite <- Er.
Qed.
Lemma until_most p m i : prefix_of p m -> prefix_of p i -> prefix_of p (until_different m i).
Proof.
  revert m i. induction p as [|c p IH]; intros m i [x Hx] [y Hy]; [now exists (until_different m i)|]. cbn in Hx, Hy. subst. cbn [until_different].
  rewrite Ascii.eqb_refl. destruct (IH (p ++ x)%string (p ++ y)%string) as [r E]; [now exists x|now exists y|]. exists r. cbn. now rewrite <- E.
Qed.
Lemma leading_prefix l : prefix_of (leading_blanks l) l.
Proof.
  induction l as [|c l IH]; [now exists EmptyString|]. cbn. destruct (is_blank_char c); [|now exists (String c l)]. destruct IH as [r E]. exists r. cbn. now rewrite <- E.
Qed.
Lemma leading_white l : blank_line (leading_blanks l).
Proof.
  unfold blank_line. induction l as [|c l IH]; [constructor|]. cbn. destruct (is_blank_char c) eqn:E; [|constructor]. constructor; [now apply blank_char_iff|exact IH].
Qed.
Lemma leading_most p l : prefix_of p l -> blank_line p -> prefix_of p (leading_blanks l).
Proof.
  revert l. induction p as [|c p IH]; intros l [r ->] B; [now exists (leading_blanks (EmptyString ++ r)%string)|]. cbn. inversion B as [|? ? W B']; subst.
  apply blank_char_iff in W. rewrite W. destruct (IH (p ++ r)%string) as [q E]; [now exists r|exact B'|]. exists q. cbn. now rewrite <- E.
Qed.

(** ** The margin *)
Definition best (is : list string) (m : string) : Prop :=
  Forall (prefix_of m) is /\ (forall p, Forall (prefix_of p) is -> prefix_of p m).
Lemma margin_fold is : forall m done, done <> [] -> best done m ->
  exists m', fold_left margin_step is (Some m) = Some m' /\ best (done ++ is) m'.
Proof.
  induction is as [|i is IH]; intros m done Nn B; [exists m; rewrite app_nil_r; auto|]. cbn [fold_left].
  assert (X : exists m1, margin_step (Some m) i = Some m1 /\ best (done ++ [i]) m1).
  { unfold margin_step. destruct B as [B1 B2]. destruct (starts_with i m) eqn:E1; [|destruct (starts_with m i) eqn:E2].
    - apply starts_with_iff in E1. eexists. split; [reflexivity|]. split; [apply Forall_app; auto|]. intros p H. apply Forall_app in H as [H _]. auto.
    - apply starts_with_iff in E2. eexists. split; [reflexivity|]. split.
      + apply Forall_app. split; [|repeat constructor; apply prefix_refl]. revert B1. apply Forall_impl. intros l. now apply prefix_trans.
      + intros p H. apply Forall_app in H as [_ H]. now inversion H.
    - eexists. split; [reflexivity|]. split.
      + apply Forall_app. split.
        * revert B1. apply Forall_impl. intros l. apply prefix_trans. apply until_left.
        * repeat constructor. apply until_right. intros H. apply starts_with_iff in H. congruence.
      + intros p H. apply Forall_app in H as [H1 H2]. inversion H2; subst. apply until_most; auto. }
  destruct X as (m1 & -> & B'). destruct (IH m1 (done ++ [i])) as (m' & E & B2); [destruct done; discriminate|exact B'|]. exists m'. rewrite <- app_assoc in B2. auto.
Qed.
Lemma margin_best is : is <> [] -> exists m, margin_of_indents is = Some m /\ best is m.
Proof.
  destruct is as [|i is]; [congruence|]. intros _. unfold margin_of_indents. cbn [fold_left margin_step].
  apply (margin_fold is i [i]); [discriminate|]. split; [repeat constructor; apply prefix_refl|]. intros p H. now inversion H.
Qed.
Lemma in_indents i ls : In i (indents ls) <-> exists l, In l ls /\ l <> EmptyString /\ i = leading_blanks l.
Proof.
  unfold indents. rewrite in_flat_map. split.
  - intros (l & H & Hi). exists l. split; [exact H|]. destruct l; [contradiction|]. destruct Hi as [<-|[]]. split; [discriminate|reflexivity].
  - intros (l & H & Nn & ->). exists l. split; [exact H|]. destruct l; [congruence|]. now left.
Qed.
Lemma in_emptied l ls : In l (map empty_if_blank ls) /\ l <> EmptyString <-> In l ls /\ ~ blank_line l.
Proof.
  rewrite in_map_iff. unfold empty_if_blank. split.
  - intros [(l0 & E & H) Nn]. destruct (only_blanks l0) eqn:B; [congruence|]. subst. split; [exact H|]. rewrite <- only_blanks_iff. congruence.
  - intros [H B]. rewrite <- only_blanks_iff in B. split; [exists l; split; [destruct (only_blanks l); congruence|exact H]|]. intros ->. apply B. reflexivity.
Qed.
Definition margin (ls : list string) : string :=
  match margin_of_indents (indents (map empty_if_blank ls)) with Some m => m | None => EmptyString end.
Lemma margin_common ls : common_indentation ls (margin ls).
Proof.
  unfold margin. destruct (indents (map empty_if_blank ls)) as [|i is] eqn:E.
  - cbn. split; [constructor|]. split; [intros l _ _; now exists l|]. intros m' _ _ (l & H & B). exfalso.
    destruct (proj2 (in_emptied l ls) (conj H B)) as [H1 H2].
    assert (X : In (leading_blanks l) (indents (map empty_if_blank ls))) by (apply in_indents; eauto). rewrite E in X. contradiction.
  - rewrite <- E. destruct (margin_best (indents (map empty_if_blank ls))) as (m & -> & [B1 B2]); [rewrite E; discriminate|].
    rewrite Forall_forall in B1. split; [|split].
    + assert (X : In i (indents (map empty_if_blank ls))) by (rewrite E; now left). pose proof (B1 i X) as P.
      apply in_indents in X as (l & _ & _ & ->). eapply prefix_white; [exact P|apply leading_white].
    + intros l H B. destruct (proj2 (in_emptied l ls) (conj H B)) as [H1 H2].
      apply (prefix_trans m (leading_blanks l)); [|apply leading_prefix]. apply B1. apply in_indents. eauto.
    + intros m' W H _. apply B2. apply Forall_forall. intros j Hj. apply in_indents in Hj as (l & Hl & Nn & ->).
      apply leading_most; [|exact W]. destruct (proj1 (in_emptied l ls) (conj Hl Nn)). now apply H.
Qed.

(** ** [dedent] and [indent] line by line *)
Definition dedent_line (m l : string) : string := if only_blanks l then EmptyString else drop_margin m l.
Lemma strip_empty m r : strip_prefix m EmptyString = Some r -> r = EmptyString.
Proof. destruct m; cbn; congruence. Qed.
Lemma dedent_lines s : dedent s = join_lines (map (dedent_line (margin (split_lines s))) (split_lines s)).
Proof.
  unfold dedent, margin. set (ls := split_lines s). set (o := margin_of_indents _). clearbody o. f_equal. destruct o as [m|].
  - rewrite map_map. apply map_ext. intros l. unfold empty_if_blank, dedent_line. destruct (only_blanks l); [|reflexivity].
    unfold drop_margin. destruct (strip_prefix m EmptyString) eqn:E; [now apply strip_empty in E|reflexivity].
  - apply map_ext. intros l. unfold dedent_line, empty_if_blank, drop_margin. cbn. reflexivity.
Qed.
Lemma prefix_no_newline m l : ~ In newline (chars (m ++ l)%string) -> ~ In newline (chars l).
Proof. rewrite chars_app, in_app_iff. tauto. Qed.
Lemma dedent_line_no_newline m l : ~ In newline (chars l) -> ~ In newline (chars (dedent_line m l)).
Proof.
  intros H. unfold dedent_line. destruct (only_blanks l); [easy|]. unfold drop_margin. destruct (strip_prefix m l) as [r|] eqn:E; [|exact H].
  apply strip_prefix_iff in E. subst. now apply prefix_no_newline in H.
Qed.
Lemma split_dedent s : split_lines (dedent s) = map (dedent_line (margin (split_lines s))) (split_lines s).
Proof.
  rewrite dedent_lines. apply split_join_lines.
  - pose proof (split_not_nil s). destruct (split_lines s); [congruence|discriminate].
  - apply Forall_map. pose proof (split_no_newline s) as F. revert F. apply Forall_impl. intros l. apply dedent_line_no_newline.
Qed.
Lemma split_indent s p : ~ In newline (chars p) ->
  split_lines (indent s p) = map (fun l => if only_blanks l then l else (p ++ l)%string) (split_lines s).
Proof.
  intros Hp. unfold indent. apply split_join_lines.
  - pose proof (split_not_nil s). destruct (split_lines s); [congruence|discriminate].
  - apply Forall_map. pose proof (split_no_newline s) as F. revert F. apply Forall_impl. intros l H. destruct (only_blanks l); [exact H|].
    rewrite chars_app, in_app_iff. tauto.
Qed.
Lemma split_message message context :
  split_lines (format_error_message message context) = split_lines (dedent context) ++ split_lines (indent (dedent message) "    ").
Proof.
  unfold format_error_message. rewrite <- (split_join (dedent context)) at 1. rewrite <- (split_join (indent (dedent message) "    ")) at 1.
  change (String newline EmptyString ++ ?x)%string with (String newline x). rewrite <- join_app by apply split_not_nil.
  apply split_join_lines; [|apply Forall_app; split; apply split_no_newline].
  intros H. apply app_eq_nil in H as [H _]. now apply split_not_nil in H.
Qed.
Lemma dedent_line_spec ls l : In l ls ->
  (blank_line l -> dedent_line (margin ls) l = EmptyString) /\ (~ blank_line l -> l = (margin ls ++ dedent_line (margin ls) l)%string).
Proof.
  intros H. unfold dedent_line. rewrite <- only_blanks_iff. destruct (only_blanks l) eqn:E; (split; [congruence|]); [congruence|].
  intros B. destruct (margin_common ls) as (_ & P & _). destruct (P l H) as [r Hr]; [now rewrite <- only_blanks_iff, E|].
  apply strip_prefix_iff in Hr. unfold drop_margin. rewrite Hr. now apply strip_prefix_iff.
Qed.
Lemma blank_app m r : blank_line (m ++ r)%string <-> blank_line m /\ blank_line r.
Proof. unfold blank_line. now rewrite chars_app, Forall_app. Qed.
