(** * Facts for C85: texts *)
From Coq Require Import Ascii Lia DecimalString Decimal DecimalNat.
From Verif Require Import Base PyTree Tensor Num States Wf Text TextSpec TextFacts PyStr Messages MessagesSpec.
Open Scope string_scope. Open Scope list_scope.

(** ** Lines *)
Lemma one_line_iff s : one_line s = true <-> ~ In newline (chars s).
Proof.
  induction s as [|c s IH]; cbn; [split; auto|]. rewrite andb_true_iff, IH, negb_true_iff, Ascii.eqb_neq. fold newline.
  split; [intros [A B] [C|C]; auto|]. intros H. split; [intros ->; apply H; now left|intros X; apply H; now right].
Qed.
Lemma one_line_app a b : one_line (a ++ b) = one_line a && one_line b.
Proof. induction a as [|c a IH]; cbn; [reflexivity|]. now rewrite IH, andb_assoc. Qed.
Lemma append_nil_r s : (s ++ "")%string = s.
Proof. induction s; cbn; congruence. Qed.
Lemma append_cancel_l p a b : (p ++ a)%string = (p ++ b)%string -> a = b.
Proof. induction p as [|c p IH]; cbn; [auto|]. intros [= H]. auto. Qed.
Lemma prefix_antisym a b : prefix_of a b -> prefix_of b a -> a = b.
Proof.
  intros [r ->] [r' E]. rewrite app_string_assoc in E. rewrite <- (append_nil_r a) in E at 1. apply append_cancel_l in E.
  destruct r; [now rewrite append_nil_r|discriminate].
Qed.
(** Starts with something to read. *)
Definition begins (l : string) : Prop := match l with EmptyString => False | String c _ => ~ white c end.
Lemma begins_not_blank l : begins l -> ~ blank_line l.
Proof. destruct l; [intros []|]. intros H B. inversion B. contradiction. Qed.
Lemma blank_prefix_of_begins m : forall pre l, blank_line m -> begins l -> prefix_of m (pre ++ l) -> prefix_of m pre.
Proof.
  induction m as [|c m IH]; intros pre l B H [r E]; [now exists pre|]. inversion B as [|? ? W B']; subst.
  destruct pre as [|d pre].
  - cbn in E. subst l. cbn in H. contradiction.
  - cbn in E. injection E as <- E. destruct (IH pre l B' H (ex_intro _ r E)) as [r' ->]. now exists r'.
Qed.
Lemma margin_is pre ls tail : blank_line pre -> blank_line tail -> Forall (fun l => l = "" \/ begins l) ls -> (exists l, In l ls /\ l <> "") ->
  margin ("" :: map (append pre) ls ++ [tail]) = pre.
Proof.
  intros Bp Bt F (l0 & I0 & N0). destruct (margin_common ("" :: map (append pre) ls ++ [tail])) as (Bm & Pm & Mx).
  assert (G0 : begins l0) by (rewrite Forall_forall in F; destruct (F _ I0); [contradiction|assumption]).
  assert (J0 : In (pre ++ l0)%string ("" :: map (append pre) ls ++ [tail])) by (right; apply in_or_app; left; now apply in_map).
  assert (K0 : ~ blank_line (pre ++ l0)) by (rewrite blank_app; intros [_ X]; now apply begins_not_blank in X).
  apply prefix_antisym.
  - apply (blank_prefix_of_begins _ pre l0 Bm G0). now apply Pm.
  - apply Mx; [exact Bp| |eauto]. intros l Hl Nl. destruct Hl as [<-|Hl]; [exfalso; apply Nl; constructor|].
    apply in_app_or in Hl as [Hl|[<-|[]]]; [|contradiction]. apply in_map_iff in Hl as (x & <- & _). now exists x.
Qed.
Lemma white_not_newline l : blank_line l -> ~ In newline (chars l).
Proof. intros B H. unfold blank_line in B. rewrite Forall_forall in B. destruct (B _ H) as [X|X]; discriminate. Qed.
Lemma begins_not_only_blanks l : begins l -> only_blanks l = false.
Proof. intros H. destruct (only_blanks l) eqn:E; [|reflexivity]. apply only_blanks_iff in E. now apply begins_not_blank in E. Qed.
Lemma dedent_own pre l : blank_line pre -> l = "" \/ begins l -> dedent_line pre (pre ++ l) = l.
Proof.
  intros B H. unfold dedent_line. destruct (only_blanks (pre ++ l)) eqn:E.
  - apply only_blanks_iff, blank_app in E as [_ E]. destruct H as [->|H]; [reflexivity|]. now apply begins_not_blank in H.
  - unfold drop_margin. now rewrite (proj2 (strip_prefix_iff pre _ l) eq_refl).
Qed.
Lemma dedent_one_line l : one_line l = true -> begins l -> dedent l = l.
Proof.
  intros O H. rewrite dedent_lines. rewrite (split_line l) by now apply one_line_iff. cbn [map join_lines].
  assert (margin [l] = "") as ->.
  { destruct (margin_common [l]) as (Bm & Pm & _). destruct (margin [l]) as [|c m] eqn:E; [reflexivity|].
    assert (P : prefix_of (String c m) (("" ++ l)%string)) by (apply Pm; [now left|now apply begins_not_blank]).
    apply blank_prefix_of_begins in P; [|exact Bm|exact H]. destruct P as [r E']. discriminate. }
  exact (dedent_own "" l ltac:(constructor) (or_intror H)).
Qed.
Lemma format_shown pre ls tail ctx : blank_line pre -> blank_line tail -> Forall (fun l => l = "" \/ begins l) ls -> forallb one_line ls = true ->
  (exists l, In l ls /\ l <> "") -> one_line ctx = true -> begins ctx ->
  format_error_message (lines ("" :: map (append pre) ls ++ [tail])) ctx = lines (ctx :: shown ls).
Proof.
  intros Bp Bt F O X Oc Hc. rewrite <- (split_join (format_error_message _ ctx)), split_message.
  rewrite (dedent_one_line ctx Oc Hc), (split_line ctx) by now apply one_line_iff.
  rewrite split_indent by (cbn; intuition discriminate). rewrite split_dedent. unfold lines. change (String "010" "") with (String newline ""). rewrite <- !join_concat.
  assert (Fo : Forall (fun l => ~ In newline (chars l)) ls).
  { apply Forall_forall. intros l Hl. apply one_line_iff. rewrite forallb_forall in O. now apply O. }
  rewrite !split_join_lines; [|discriminate|].
  2:{ constructor; [cbn; tauto|]. apply Forall_app. split; [|constructor; [now apply white_not_newline|constructor]].
      apply Forall_map. revert Fo. apply Forall_impl. intros l Hl. rewrite chars_app, in_app_iff. intros [Y|Y]; [now apply white_not_newline in Y|contradiction]. }
  rewrite (margin_is pre ls tail Bp Bt F X). cbn [app]. f_equal. f_equal. unfold shown.
  cbn [map]. f_equal. rewrite !map_app. f_equal.
  - rewrite !map_map. clear -Bp F. induction F as [|l ls H F IH]; [reflexivity|]. cbn [map]. f_equal; [|exact IH]. rewrite (dedent_own pre l Bp H).
    destruct H as [->|H]; [reflexivity|]. rewrite (begins_not_only_blanks l H). destruct l; [contradiction|reflexivity].
  - cbn [map]. unfold dedent_line. rewrite (proj2 (only_blanks_iff tail) Bt). reflexivity.
Qed.
Definition line_okb (l : string) : bool := match l with EmptyString => true | String c _ => negb (is_blank_char c) end.
Lemma line_okb_ok l : line_okb l = true -> l = "" \/ begins l.
Proof. destruct l as [|c l]; [auto|]. cbn. intros H. right. rewrite <- blank_char_iff. destruct (is_blank_char c); discriminate. Qed.
Lemma format_shown_b pre l ls ctx : only_blanks pre = true -> begins l -> forallb line_okb ls = true -> forallb one_line (l :: ls) = true ->
  one_line ctx = true -> begins ctx -> format_error_message (lines ("" :: map (append pre) (l :: ls) ++ [pre])) ctx = lines (ctx :: shown (l :: ls)).
Proof.
  intros B Hl F O Oc Hc. apply only_blanks_iff in B. apply format_shown; auto.
  - constructor; [now right|]. apply Forall_forall. intros x I. rewrite forallb_forall in F. apply line_okb_ok. now apply F.
  - exists l. split; [now left|]. intros ->. destruct Hl.
Qed.
(** A message of one line. *)
Lemma format_line l ctx : one_line l = true -> begins l -> one_line ctx = true -> begins ctx ->
  format_error_message l ctx = lines [ctx; ("    " ++ l)%string].
Proof.
  intros O H Oc Hc. unfold format_error_message. rewrite (dedent_one_line l O H), (dedent_one_line ctx Oc Hc). unfold indent.
  rewrite (split_line l) by now apply one_line_iff. cbn [map join_lines]. now rewrite (begins_not_only_blanks l H).
Qed.

(** ** Numbers, shapes, dtypes *)
Definition nondigit (s : string) : Prop := match s with EmptyString => True | String c _ => ~ In c (list_ascii_of_string "0123456789") end.
Lemma digits_cancel u : forall v s t, nondigit s -> nondigit t ->
  (NilEmpty.string_of_uint u ++ s)%string = (NilEmpty.string_of_uint v ++ t)%string -> u = v /\ s = t.
Proof.
  induction u; intros v s t Hs Ht E; destruct v; cbn in E; try discriminate E; try (split; [reflexivity|exact E]);
    try (injection E as E; destruct (IHu _ _ _ Hs Ht E) as [-> ->]; split; reflexivity);
    exfalso; first [subst s; cbn in Hs; tauto | subst t; cbn in Ht; tauto].
Qed.
Lemma str_int_cancel a b s t : nondigit s -> nondigit t -> (str_int a ++ s)%string = (str_int b ++ t)%string -> a = b /\ s = t.
Proof. intros Hs Ht E. apply digits_cancel in E as [E ->]; [|assumption|assumption]. split; [|reflexivity]. now apply Unsigned.to_uint_inj. Qed.
Lemma one_line_str_int a : one_line (str_int a) = true.
Proof. unfold str_int. generalize (Nat.to_uint a). induction u; cbn; auto. Qed.
Lemma str_rest_cancel a : forall b s t, (str_rest a ++ s)%string = (str_rest b ++ t)%string -> a = b /\ s = t.
Proof.
  induction a as [|x a IH]; intros [|y b] s t E; cbn in E; try discriminate E; [injection E as ->; auto|].
  injection E as E. rewrite !app_string_assoc in E. apply str_int_cancel in E as [-> E].
  - destruct (IH b s t E) as [-> ->]. auto.
  - destruct a; cbn; intuition discriminate.
  - destruct b; cbn; intuition discriminate.
Qed.
Lemma str_shape_cancel a b s t : (str_shape a ++ s)%string = (str_shape b ++ t)%string -> a = b /\ s = t.
Proof.
  assert (R : forall x, nondigit (str_rest x)) by (intros [|? ?]; cbn; intuition discriminate).
  assert (R' : forall x s, nondigit (str_rest x ++ s)) by (intros [|? ?] ?; cbn; intuition discriminate).
  assert (D : forall n s, exists c r, (str_int n ++ s)%string = String c r /\ c <> ")"%char).
  { intros n s'. destruct n as [|n]; [exists "0"%char, s'; split; [reflexivity|discriminate]|]. unfold str_int.
    destruct (Nat.to_uint (S n)) eqn:E; cbn; try (eexists _, _; split; [reflexivity|discriminate]).
    exfalso. apply (f_equal Nat.of_uint) in E. rewrite Unsigned.of_to in E. discriminate. }
  destruct a as [|x [|x' a]], b as [|y [|y' b]]; intros E; cbn [str_shape] in E.
  - cbn in E. injection E as ->. auto.
  - exfalso. cbn in E. injection E as E. rewrite app_string_assoc in E. destruct (D y (",)" ++ t)%string) as (c & r & X & Y). rewrite X in E. injection E as E _. congruence.
  - exfalso. cbn in E. injection E as E. rewrite app_string_assoc in E. destruct (D y (str_rest (y' :: b) ++ t)%string) as (c & r & X & Y). cbn in X. cbn in E. rewrite X in E. injection E as E _. congruence.
  - exfalso. cbn in E. injection E as E. rewrite app_string_assoc in E. destruct (D x (",)" ++ s)%string) as (c & r & X & Y). rewrite X in E. injection E as E _. congruence.
  - rewrite !app_string_assoc in E. apply append_cancel_l in E. rewrite ?app_string_assoc in E. apply str_int_cancel in E as [-> E]; [|cbn; intuition discriminate|cbn; intuition discriminate]. cbn in E. injection E as ->. auto.
  - exfalso. rewrite !app_string_assoc in E. apply append_cancel_l in E. rewrite ?app_string_assoc in E. apply str_int_cancel in E as [_ E]; [|cbn; intuition discriminate|apply R']. cbn in E. discriminate.
  - exfalso. cbn in E. injection E as E. rewrite app_string_assoc in E. destruct (D x (str_rest (x' :: a) ++ s)%string) as (c & r & X & Y). cbn in X. cbn in E. rewrite X in E. injection E as E _. congruence.
  - exfalso. rewrite !app_string_assoc in E. apply append_cancel_l in E. rewrite ?app_string_assoc in E. apply str_int_cancel in E as [_ E]; [|apply R'|cbn; intuition discriminate]. cbn in E. discriminate.
  - rewrite !app_string_assoc in E. apply append_cancel_l in E. rewrite ?app_string_assoc in E. apply str_int_cancel in E as [-> E]; [|apply R'|apply R']. apply str_rest_cancel in E as [[= -> ->] ->]. auto.
Qed.
Lemma one_line_str_rest a : one_line (str_rest a) = true.
Proof. induction a as [|x a IH]; [reflexivity|]. cbn. now rewrite one_line_app, one_line_str_int, IH. Qed.
Lemma one_line_str_shape a : one_line (str_shape a) = true.
Proof.
  destruct a as [|x [|y a]]; [reflexivity| |]; cbn [str_shape]; rewrite !one_line_app, one_line_str_int; [reflexivity|]. now rewrite one_line_str_rest.
Qed.
Lemma str_dtype_cancel a b s t : (str_dtype a ++ s)%string = (str_dtype b ++ t)%string -> a = b /\ s = t.
Proof. destruct a, b; intros E; cbn in E; try discriminate E; (split; [reflexivity|congruence]). Qed.
Lemma one_line_str_dtype a : one_line (str_dtype a) = true.
Proof. destruct a; reflexivity. Qed.
