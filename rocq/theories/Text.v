(** * [format_error_message]: core/utils.py:13-25, with [textwrap.dedent] and [textwrap.indent] of Python's
    standard library written out.

    Texts are strings of characters. Simplification: space and tab are the only white space within a line
    and the newline is the only line separator ([str.splitlines] and [str.strip] know some more). *)
From Coq Require Import Ascii.
From Verif Require Import Base.

Definition newline : ascii := "010"%char.
Definition is_blank_char (c : ascii) : bool := Ascii.eqb c " " || Ascii.eqb c "009".

(** [text.split("\n")] and ["\n".join(lines)] *)
Fixpoint split_lines (s : string) : list string :=
  match s with
  | EmptyString => [EmptyString]
  | String c s' =>
      if Ascii.eqb c newline then EmptyString :: split_lines s'
      else match split_lines s' with
           | [] => [String c EmptyString]
           | l :: ls => String c l :: ls
           end
  end.
Fixpoint join_lines (ls : list string) : string :=
  match ls with
  | [] => EmptyString
  | [l] => l
  | l :: ls' => (l ++ String newline (join_lines ls'))%string
  end.

Fixpoint only_blanks (l : string) : bool :=
  match l with EmptyString => true | String c l' => is_blank_char c && only_blanks l' end.
(** [re.sub('^[ \t]+$', '', text)], on one line *)
Definition empty_if_blank (l : string) : string := if only_blanks l then EmptyString else l.
(** The indentation of a line, [(^[ \t]* )(?:[^ \t\n])]: nothing is found in an empty line. *)
Fixpoint leading_blanks (l : string) : string :=
  match l with
  | EmptyString => EmptyString
  | String c l' => if is_blank_char c then String c (leading_blanks l') else EmptyString
  end.
Definition indents (ls : list string) : list string :=
  flat_map (fun l => match l with EmptyString => [] | _ => [leading_blanks l] end) ls.
(** [text.startswith(p)], and the rest of the text *)
Fixpoint strip_prefix (p l : string) : option string :=
  match p, l with
  | EmptyString, _ => Some l
  | String c p', String d l' => if Ascii.eqb c d then strip_prefix p' l' else None
  | String _ _, EmptyString => None
  end.
Definition starts_with (l p : string) : bool := match strip_prefix p l with Some _ => true | None => false end.
(** [for i, (x, y) in enumerate(zip(margin, indent)): if x != y: margin = margin[:i]; break] *)
Fixpoint until_different (margin indent : string) : string :=
  match margin, indent with
  | String x m, String y i => if Ascii.eqb x y then String x (until_different m i) else EmptyString
  | _, _ => margin
  end.
(** One turn of the loop of [dedent]. *)
Definition margin_step (margin : option string) (indent : string) : option string :=
  match margin with
  | None => Some indent
  | Some m =>
      if starts_with indent m then Some m
      else if starts_with m indent then Some indent
      else Some (until_different m indent)
  end.
Definition margin_of_indents (is : list string) : option string := fold_left margin_step is None.
(** [re.sub('(?m)^' + margin, '', text)], on one line *)
Definition drop_margin (m l : string) : string := match strip_prefix m l with Some r => r | None => l end.
(** [textwrap.dedent] *)
Definition dedent (text : string) : string :=
  let ls := map empty_if_blank (split_lines text) in
  join_lines (match margin_of_indents (indents ls) with
              | None => ls
              | Some m => map (drop_margin m) ls
              end).
(** [textwrap.indent]: lines that consist of white space only are left alone. *)
Definition indent (text prefix : string) : string :=
  join_lines (map (fun l => if only_blanks l then l else (prefix ++ l)%string) (split_lines text)).

(** utils.py:13-25 [format_error_message] *)
Definition format_error_message (message context : string) : string :=
  let context' := dedent context in
  let message' := dedent message in
  let message'' := indent message' "    " in
  (context' ++ String newline EmptyString ++ message'')%string.
