(** * Vocabulary for texts. Nothing here models repository code. *)
From Coq Require Import Ascii.
From Verif Require Import Base.

Definition white (c : ascii) : Prop := c = " "%char \/ c = "009"%char.
Fixpoint chars (s : string) : list ascii := match s with EmptyString => [] | String c s' => c :: chars s' end.
(** A line without anything to read. *)
Definition blank_line (l : string) : Prop := Forall white (chars l).
(** [ls] are the lines of the text [s]: the text is the lines with newlines between them, and no line contains one. *)
Definition are_lines (ls : list string) (s : string) : Prop :=
  s = String.concat (String "010"%char EmptyString) ls /\ ls <> [] /\ Forall (fun l => ~ In "010"%char (chars l)) ls.
(** [m] is the longest indentation all lines that are not blank have in common. *)
Definition common_indentation (ls : list string) (m : string) : Prop :=
  blank_line m /\
  (forall l, In l ls -> ~ blank_line l -> exists r, l = (m ++ r)%string) /\
  (forall m', blank_line m' -> (forall l, In l ls -> ~ blank_line l -> exists r, l = (m' ++ r)%string) ->
     (exists l, In l ls /\ ~ blank_line l) -> exists r, m = (m' ++ r)%string).
(** The characters of a text that are neither spaces nor tabs nor newlines. *)
Definition readable (s : string) : list ascii :=
  filter (fun c => negb (Ascii.eqb c " " || Ascii.eqb c "009" || Ascii.eqb c "010")) (chars s).
