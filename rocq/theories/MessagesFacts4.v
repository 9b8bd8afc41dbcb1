(** * Facts for C85: different complaints are worded differently *)
From Coq Require Import Ascii Lia.
From Verif Require Import Base PyTree Tensor Num States Wf UtilsSpec EditorSpec PyStr Messages MessagesSpec MessagesFacts Text TextSpec TextFacts.
Open Scope string_scope. Open Scope list_scope.

Lemma lines_cons h l ls : lines (h :: l :: ls) = (h ++ String "010"%char (lines (l :: ls)))%string.
Proof. reflexivity. Qed.
Lemma line_cancel a : forall b s t, one_line a = true -> one_line b = true ->
  (a ++ String "010"%char s)%string = (b ++ String "010"%char t)%string -> a = b /\ s = t.
Proof.
  induction a as [|x a IH]; intros [|y b] s t Ha Hb E; cbn in E.
  - now injection E as ->.
  - injection E as <- _. discriminate.
  - injection E as -> _. discriminate.
  - injection E as -> E. cbn in Ha, Hb. apply andb_true_iff in Ha as [_ Ha]. apply andb_true_iff in Hb as [_ Hb]. destruct (IH b s t Ha Hb E) as [-> ->]. auto.
Qed.
Lemma append_length a b : String.length (a ++ b) = String.length a + String.length b.
Proof. induction a; cbn; congruence. Qed.
Lemma append_cancel_r a : forall b t, (a ++ t)%string = (b ++ t)%string -> a = b.
Proof.
  induction a as [|x a IH]; intros [|y b] t E; cbn in E; [reflexivity| | |].
  - exfalso. apply (f_equal String.length) in E. cbn in E. rewrite append_length in E. lia.
  - exfalso. apply (f_equal String.length) in E. cbn in E. rewrite append_length in E. lia.
  - injection E as -> E. f_equal. eauto.
Qed.

Ltac deeper E :=
  cbn [append map app String.concat] in E; rewrite ?app_string_assoc in E; cbn [append] in E;
  first [ discriminate E
        | apply str_int_cancel in E as [-> E]; [|cbn; intuition discriminate|cbn; intuition discriminate]; deeper E
        | apply str_shape_cancel in E as [-> E]; deeper E
        | apply str_dtype_cancel in E as [-> E]; deeper E
        | injection E as E; deeper E
        | idtac ].

Section Differ.
  Context {N : numsys} (str_scl : scl N -> string).
  Notation message := (message str_scl).
  Lemma heading_line (c : edit N) : printable str_scl c -> one_line (heading c) = true.
  Proof.
    intros [P _]. destruct c; cbn [heading]; try reflexivity.
    - rewrite !one_line_app. cbn in P. now rewrite P.
    - rewrite !one_line_app. cbn in P. now rewrite P.
  Qed.
  Lemma explanation_cons (c : edit N) x : exists l ls, explanation str_scl c x = l :: ls.
  Proof. destruct x; do 2 eexists; reflexivity. Qed.
  Lemma message_splits (c c' : edit N) x x' : printable str_scl c -> printable str_scl c' -> message c x = message c' x' ->
    heading c = heading c' /\ lines (explanation str_scl c x) = lines (explanation str_scl c' x').
  Proof.
    intros P P' E. unfold MessagesSpec.message in E. destruct (explanation_cons c x) as (l & ls & X). destruct (explanation_cons c' x') as (l' & ls' & X').
    rewrite X, X' in *. rewrite !lines_cons in E. apply line_cancel in E; [exact E| |]; now apply heading_line.
  Qed.
  Lemma heading_tells (c c' : edit N) : heading c = heading c' -> same_setter c c'.
  Proof. destruct c, c'; cbn [heading same_setter]; intros E; try exact I; discriminate E. Qed.
  Lemma explanation_tells (c c' : edit N) x x' : lines (explanation str_scl c x) = lines (explanation str_scl c' x') -> x = x'.
  Proof.
    intros E. destruct x, x'; unfold lines in E; cbn [explanation shown map app String.concat append] in E; try discriminate E; try reflexivity; deeper E; reflexivity.
  Qed.
  Lemma not_defined_tells (c c' : edit N) : lines (explanation str_scl c NotDefined) = lines (explanation str_scl c' NotDefined) -> name_of c = name_of c'.
  Proof.
    intros E. unfold lines in E. cbn [explanation shown map app String.concat append] in E. injection E as E. rewrite !app_string_assoc in E.
    now apply append_cancel_r in E.
  Qed.
  Lemma names_tell (c c' : edit N) : heading c = heading c' -> match c with EDefaults n _ | EUpdates n _ => n = name_of c' | _ => True end.
  Proof.
    destruct c, c'; cbn [heading name_of]; intros E; try exact I; try discriminate E; injection E as E; now apply append_cancel_r in E.
  Qed.
  Lemma leaf_tells x x' : lines (leaf_explanation x) = lines (leaf_explanation x') -> x = x'.
  Proof.
    intros E. destruct x, x'; unfold lines in E; cbn [leaf_explanation shown map app String.concat append] in E; try discriminate E; try reflexivity; deeper E; reflexivity.
  Qed.
End Differ.
