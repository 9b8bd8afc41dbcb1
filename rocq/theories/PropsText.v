(** * C83: error messages. Vocabulary: TextSpec.v. *)
From Coq Require Import Ascii Lia.
From Verif Require Import Base Text TextSpec TextFacts.
Open Scope string_scope. Open Scope list_scope.

Lemma Forall2_map_in {A B} (P : A -> B -> Prop) f ls : (forall l, In l ls -> P l (f l)) -> Forall2 P ls (map f ls).
Proof. induction ls as [|l ls IH]; intros H; constructor; [apply H; now left|]. apply IH. intros x Hx. apply H. now right. Qed.

(** The lines of the formatted message are those of the context, moved left together as far as possible,
    and then those of the message, moved together so that their common indentation is four spaces. *)
Theorem C83_lines message context lm lc : are_lines lm message -> are_lines lc context ->
  exists rc rm ic im, are_lines (rc ++ rm) (format_error_message message context) /\
    common_indentation lc ic /\ common_indentation lm im /\
    Forall2 (fun l r => (blank_line l -> r = "") /\ (~ blank_line l -> l = (ic ++ r)%string)) lc rc /\
    Forall2 (fun l r => (blank_line l -> r = "") /\ (~ blank_line l -> exists rest, l = (im ++ rest)%string /\ r = ("    " ++ rest)%string)) lm rm.
Proof.
  intros Lm Lc. apply are_lines_unique in Lm, Lc. subst.
  exists (split_lines (dedent context)), (split_lines (indent (dedent message) "    ")), (margin (split_lines context)), (margin (split_lines message)).
  split; [rewrite <- split_message; apply are_lines_split|]. split; [apply margin_common|]. split; [apply margin_common|]. split.
  - rewrite split_dedent. apply Forall2_map_in. intros l H. now apply dedent_line_spec.
  - rewrite split_indent by (cbn; intuition discriminate). rewrite split_dedent, map_map. apply Forall2_map_in. set (ls := split_lines message). intros l Hl.
    destruct (dedent_line_spec ls l Hl) as [A B]. split.
    + intros H. now rewrite (A H).
    + intros H. exists (dedent_line (margin ls) l). split; [exact (B H)|]. destruct (only_blanks (dedent_line (margin ls) l)) eqn:E; [|reflexivity].
      exfalso. apply H. rewrite (B H). apply blank_app. split; [apply margin_common|now apply only_blanks_iff].
Qed.
Print Assumptions C83_lines.

(** What there is to read is what there was to read, in the same order. *)
Lemma readable_app a b : readable (a ++ b)%string = readable a ++ readable b.
Proof. unfold readable. now rewrite chars_app, filter_app. Qed.
Lemma readable_blank l : blank_line l -> readable l = [].
Proof.
  unfold readable, blank_line. induction 1 as [|c cs W F IH]; [reflexivity|]. cbn [filter]. rewrite IH. destruct W; subst; reflexivity.
Qed.
Lemma readable_lines ls s : are_lines ls s -> readable s = flat_map readable ls.
Proof.
  intros (-> & _ & _). induction ls as [|l [|l' ls] IH]; [reflexivity|cbn; now rewrite app_nil_r|].
  change (String.concat (String "010" "") (l :: l' :: ls)) with (l ++ String "010" (String.concat (String "010" "") (l' :: ls)))%string.
  rewrite readable_app. cbn [flat_map] in *. f_equal. exact IH.
Qed.
Theorem C83_nothing_lost message context : readable (format_error_message message context) = readable context ++ readable message.
Proof.
  destruct (C83_lines message context _ _ (are_lines_split message) (are_lines_split context)) as (rc & rm & ic & im & L & Ic & Im & Fc & Fm).
  rewrite (readable_lines _ _ L), (readable_lines _ _ (are_lines_split message)), (readable_lines _ _ (are_lines_split context)).
  rewrite flat_map_app. f_equal.
  - assert (W : readable ic = []) by (apply readable_blank, Ic). clear -Fc W. induction Fc as [|l r ls rs [A B] F IH]; [reflexivity|]. cbn [flat_map]. rewrite IH. f_equal.
    destruct (only_blanks l) eqn:E; [apply only_blanks_iff in E; now rewrite (A E), (readable_blank l E)|].
    assert (H : ~ blank_line l) by (rewrite <- only_blanks_iff, E; discriminate). rewrite (B H) at 1. rewrite readable_app, W. reflexivity.
  - assert (W : readable im = []) by (apply readable_blank, Im). clear -Fm W. induction Fm as [|l r ls rs [A B] F IH]; [reflexivity|]. cbn [flat_map]. rewrite IH. f_equal.
    destruct (only_blanks l) eqn:E; [apply only_blanks_iff in E; now rewrite (A E), (readable_blank l E)|].
    assert (H : ~ blank_line l) by (rewrite <- only_blanks_iff, E; discriminate). destruct (B H) as (rest & -> & ->). now rewrite !readable_app, W.
Qed.
Print Assumptions C83_nothing_lost.

(** A message that is formatted already, put into a larger one (as tensoreditor.py and layers/core.py do), keeps its shape:
    its lines that are not blank are only moved, all by the same amount. *)
Theorem C83_nesting message context outer l r :
  are_lines l (format_error_message message context) -> are_lines r (format_error_message (format_error_message message context) outer) ->
  exists shift unshift, blank_line shift /\ blank_line unshift /\
    Forall2 (fun x y => (blank_line x -> y = "") /\ (~ blank_line x -> exists rest, x = (unshift ++ rest)%string /\ y = (shift ++ rest)%string))
      l (skipn (List.length r - List.length l) r).
Proof.
  intros Ll Lr. destruct (C83_lines _ outer _ _ Ll (are_lines_split outer)) as (rc & rm & ic & im & L & _ & Im & _ & Fm).
  assert (E : r = rc ++ rm) by (rewrite (are_lines_unique _ _ Lr), (are_lines_unique _ _ L); reflexivity). subst r.
  exists "    ", im. split; [repeat constructor|]. split; [apply Im|]. assert (Len : List.length l = List.length rm) by (clear -Fm; induction Fm; cbn; congruence). rewrite app_length.
  replace (List.length rc + List.length rm - List.length l) with (List.length rc) by lia.
  rewrite skipn_app, skipn_all, Nat.sub_diag. exact Fm.
Qed.
Print Assumptions C83_nesting.

(** As written in tensoreditor.py: triple quoted, indented by the source's indentation, with a blank line at either end. *)
Example C83_case :
  let text ls := String.concat (String "010" "") ls in
  let message := text [""; "        Issue with shape:"; "          expected: (3, 4)"; "        got: (3, )"; "        "] in
  let context := text ["An issue occurred"; "	in accumulator 'x'"] in
  are_lines [""; "        Issue with shape:"; "          expected: (3, 4)"; "        got: (3, )"; "        "] message /\
  are_lines ["An issue occurred"; "	in accumulator 'x'"] context /\
  format_error_message message context =
  text ["An issue occurred"; "	in accumulator 'x'"; ""; "    Issue with shape:"; "      expected: (3, 4)"; "    got: (3, )"; ""].
Proof.
  intros text message context. split; [|split].
  - repeat split; [discriminate|]. repeat constructor; cbn; intuition discriminate.
  - repeat split; [discriminate|]. repeat constructor; cbn; intuition discriminate.
  - vm_compute. reflexivity.
Qed.
