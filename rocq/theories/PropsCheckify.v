(** * Checks inside compiled functions (C81). Vocabulary: CheckifySpec.v. *)
From Verif Require Import Base PyTree Tensor Num Utils States Controller Editor Checkify CheckifySpec.
Open Scope string_scope. Open Scope list_scope.

(** ** C81 *)
Lemma reaches_total {A} (p : program A) : exists cs e, reaches p cs e.
Proof.
  induction p as [a|e|ok m rest (cs & e & IH)]; [exists [], (inl a); constructor|exists [], (inr e); constructor|].
  exists ((ok, m) :: cs), e. now constructor.
Qed.
Lemma checkify_raises {A} (p : program A) cs e : reaches p cs (inr e) -> checkify p = Err e.
Proof.
  intros H. remember (inr e) as o eqn:O. induction H; try congruence; cbn.
  - congruence.
  - now rewrite (IHreaches O).
Qed.
Lemma checkify_returns {A} (p : program A) cs a : reaches p cs (inl a) ->
  exists o, checkify p = Ok (o, a) /\ (o = None <-> Forall (fun c => fst c = true) cs) /\ (forall m, o = Some m <-> first_failure cs m).
Proof.
  intros H. remember (inl a) as r eqn:O. induction H as [a0|e|ok m rest cs e H IH]; try discriminate.
  - injection O as ->. exists None. split; [reflexivity|]. split; [split; auto|]. intros m. split; [discriminate|].
    intros ([|x b] & af & E & _); discriminate.
  - destruct (IH O) as (o & E & Hn & Hs). cbn. rewrite E. cbn [bind]. exists (if ok then o else Some m). split; [reflexivity|].
    destruct ok; split.
    + split; [intros X; constructor; [reflexivity|now apply Hn]|intros X; apply Hn; now inversion X].
    + intros m'. rewrite Hs. split.
      * intros (b & af & -> & F). exists ((true, m) :: b), af. split; [reflexivity|]. now constructor.
      * intros ([|x b] & af & X & F); injection X as X1 X2; [discriminate|]. exists b, af. split; [exact X2|now inversion F].
    + split; [discriminate|]. intros X. inversion X. discriminate.
    + intros m'. split.
      * intros [= <-]. exists [], cs. split; [reflexivity|constructor].
      * intros ([|x b] & af & X & F); injection X as X1 X2; [congruence|]. subst x. inversion F. discriminate.
Qed.
(** The wrapped function returns what the function returns iff all checks hold; it raises the message of the first
    failed check iff one failed and the function came to its end; and a Python exception wins over failed checks. *)
Theorem C81_wrapper {X A} (f : X -> program A) (x : X) cs e : reaches (f x) cs e ->
  (forall a, jit_and_checkify f x = Returned a <-> e = inl a /\ Forall (fun c => fst c = true) cs) /\
  (forall m, jit_and_checkify f x = CheckFailed m <-> (exists a, e = inl a) /\ first_failure cs m) /\
  (forall err, jit_and_checkify f x = Raised err <-> e = inr err).
Proof.
  intros H. unfold jit_and_checkify, jit. destruct e as [a|err].
  - destruct (checkify_returns _ _ _ H) as (o & -> & Hn & Hs). cbn [throw]. destruct o as [m|]; (split; [|split]); intros y.
    + split; [discriminate|]. intros (_ & F). apply Hn in F. discriminate.
    + split; [intros [= ->]; split; [eauto|now apply Hs]|]. intros (_ & F). apply Hs in F. congruence.
    + split; discriminate.
    + split; [intros [= ->]; split; [reflexivity|now apply Hn]|]. intros ([= ->] & _). reflexivity.
    + split; [discriminate|]. intros (_ & F). apply Hs in F. discriminate.
    + split; discriminate.
  - rewrite (checkify_raises _ _ _ H). cbn [throw]. split; [|split]; intros y.
    + split; [discriminate|intros (E & _); discriminate].
    + split; [discriminate|intros ((a & E) & _); discriminate].
    + split; [intros [= ->]; reflexivity|intros [= ->]; reflexivity].
Qed.
Print Assumptions C81_wrapper.
(** So it is the direct call, unless a Python exception follows a failed check. *)
Theorem C81_like_direct {X A} (f : X -> program A) (x : X) cs e : reaches (f x) cs e ->
  (forall err, e = inr err -> Forall (fun c => fst c = true) cs) -> jit_and_checkify f x = direct (f x).
Proof.
  unfold jit_and_checkify, jit. intros H. induction H as [a|err|ok m rest cs e H IH]; intros G; cbn [checkify direct throw]; try reflexivity.
  assert (IH' : throw (checkify rest) = direct rest).
  { apply IH. intros err E. specialize (G err E). now inversion G. }
  destruct ok.
  - rewrite <- IH'. destruct (checkify rest) as [[o a]|err]; reflexivity.
  - destruct e as [a|err].
    + destruct (checkify_returns _ _ _ H) as (o & -> & _). reflexivity.
    + specialize (G err eq_refl). inversion G. discriminate.
Qed.
Print Assumptions C81_like_direct.
(** The editor validates in this way: the reading of Editor.v (the list of the values of the checks) is the same. *)
Lemma checks_reached {A} (p : program A) cs e : reaches p cs e ->
  checks_of p = match e with inl _ => Ok (map fst cs) | inr err => Err err end.
Proof. intros H. induction H as [a|err|ok m rest cs e H IH]; cbn; [reflexivity|reflexivity|]. rewrite IH. now destruct e. Qed.
Theorem C81_editor_validation {N} (e : editor N) (validation : program unit) :
  as_res (execute_validation_program (String.eqb (ed_mode e) "standard") validation) = execute_checks e (checks_of validation).
Proof.
  unfold execute_validation_program, execute_checks, m_standard. destruct (String.eqb (ed_mode e) "standard"); [|reflexivity].
  destruct (reaches_total validation) as (cs & o & H). rewrite (checks_reached _ _ _ H). destruct o as [a|err].
  - destruct (checkify_returns _ _ _ H) as (r & -> & Hn & Hs). cbn [bind]. unfold guard. destruct (forallb (fun b => b) (map fst cs)) eqn:F.
    + assert (r = None) as ->; [|reflexivity]. apply Hn. clear - F. rewrite forallb_forall in F. apply Forall_forall. intros c Hc.
      apply F. now apply in_map.
    + destruct r as [m|]; [reflexivity|]. exfalso. assert (G := proj1 Hn eq_refl).
      assert (forallb (fun b => b) (map fst cs) = true); [|congruence]. apply forallb_forall. intros b Hb. apply in_map_iff in Hb as (c & <- & Hc).
      rewrite Forall_forall in G. now apply G.
  - rewrite (checkify_raises _ _ _ H). reflexivity.
Qed.
Print Assumptions C81_editor_validation.
(** two checks and a result; a check and an exception *)
Definition good_or_bad (b1 b2 : bool) : program nat := Check b1 "first" (Check b2 "second" (Return 7)).
Definition crashes (b : bool) : program nat := Check b "first" (Raise KeyError).
Example C81_case :
  reaches (good_or_bad true false) [(true, "first"); (false, "second")] (inl 7) /\
  jit_and_checkify (good_or_bad true) false = CheckFailed "second" /\ jit_and_checkify (good_or_bad false) false = CheckFailed "first" /\
  jit_and_checkify (good_or_bad true) true = Returned 7 /\
  (** the case C81_like_direct leaves out *)
  jit_and_checkify crashes false = Raised KeyError /\ direct (crashes false) = CheckFailed "first".
Proof. split; [repeat constructor|]. repeat split. Qed.
