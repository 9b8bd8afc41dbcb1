(** * Vocabulary: what stays of a program when the contents of its arrays are unknown.

    [jax.jit] runs Python code on arrays of which only shape and dtype are known. Code that can be
    compiled must therefore take the same course whatever the arrays contain. Two runs are compared
    here: their arrays have equal shapes and dtypes and contents that have nothing to do with each
    other, not even the arithmetic [N], [M] need be the same. *)
From Verif Require Import Base PyTree Tensor Num States Controller Builder Editor Layers History.

(** Two runs end the same way: with the same exception, or with results related by [R]. *)
Definition same_outcome {A B} (R : A -> B -> Prop) (r : res A) (r' : res B) : Prop :=
  match r, r' with
  | Ok a, Ok b => R a b
  | Err e, Err e' => e = e'
  | _, _ => False
  end.

Section TraceSpec.
  Context {N M : numsys}.

  (** equal shapes and dtypes *)
  Definition like_array (a : array N) (b : array M) : Prop := a_shape a = a_shape b /\ a_dt a = a_dt b.
  (** the same containers, with arrays of equal shapes and dtypes in them *)
  Definition like_tree (t : tree (array N)) (t' : tree (array M)) : Prop :=
    structure t = structure t' /\ Forall2 like_array (leaves t) (leaves t').
  (** the same names in the same order *)
  Definition like_dict (d : dict (tree (array N))) (d' : dict (tree (array M))) : Prop :=
    Forall2 (fun x y => fst x = fst y /\ like_tree (snd x) (snd y)) d d'.
  (** epsilon and the depression constant may differ *)
  Record like (s : state N) (s' : state M) : Prop := mkLike {
    like_iterations : like_array (iterations s) (iterations s');
    like_residuals : like_array (residuals s) (residuals s');
    like_probabilities : like_array (probabilities s) (probabilities s');
    like_defaults : like_dict (defaults s) (defaults s');
    like_accumulators : like_dict (accumulators s) (accumulators s');
    like_updates : like_dict (updates s) (updates s');
    like_error_mode : error_mode s = error_mode s'
  }.

  Definition like_call (c : call N) (c' : call M) : Prop :=
    match c, c' with
    | CCache name item, CCache name' item' => name = name' /\ like_tree item item'
    | CIter h, CIter h' => like_array h h'
    | CReset, CReset => True
    | _, _ => False
    end.

  Definition like_editor (e : editor N) (e' : editor M) : Prop :=
    like (ed_state e) (ed_state e') /\ ed_mode e = ed_mode e'.

  (** What user code hands back. *)
  Definition like_made (m : made N) (m' : made M) : Prop :=
    match m, m' with
    | MCtrl c, MCtrl c' => like c c'
    | MOther t, MOther t' => like_tree t t'
    | _, _ => False
    end.
  Definition like_item (i : item N) (i' : item M) : Prop :=
    match i, i' with
    | ISame, ISame => True
    | ICtrl c, ICtrl c' => like c c'
    | IObj t, IObj t' => like_tree t t'
    | _, _ => False
    end.
  Definition like_ret (r : ret N) (r' : ret M) : Prop :=
    match r, r' with
    | RTuple l, RTuple l' => Forall2 like_item l l'
    | ROther t, ROther t' => like_tree t t'
    | _, _ => False
    end.
  (** Two layers whose methods take the same course on arrays they cannot look into. *)
  Record like_layer (l : layer N) (l' : layer M) : Prop := mkLikeLayer {
    like_make : forall u u' d d', like_tree u u' ->
      same_outcome like_made (l_make_controller l u d) (l_make_controller l' u' d');
    like_run : forall c c' u u', like c c' -> like_tree u u' ->
      same_outcome like_ret (l_run_iteration l c u) (l_run_iteration l' c' u');
    like_lazy : forall c c' u u', like c c' -> like_tree u u' ->
      same_outcome (fun _ _ => True) (l_setup_lazy l c u) (l_setup_lazy l' c' u')
  }.
End TraceSpec.

(** A layer that can be compiled: its course does not depend on the contents of arrays. *)
Definition traceable {N} (l : layer N) : Prop := like_layer l l.

(** ** Running without contents: [jax.eval_shape] *)

(** The arithmetic in which there is only one number. *)
Definition NoContents : numsys := {|
  val := unit; scl := unit; v_zero := tt; v_one := tt;
  v_add := fun _ _ => tt; v_sub := fun _ _ => tt; v_mul := fun _ _ => tt;
  v_ltb := fun _ _ => false; v_leb := fun _ _ => false; v_eqb := fun _ _ => false;
  v_max := fun _ _ => tt; v_min := fun _ _ => tt; v_close := fun _ _ => false;
  v_of_scl := fun _ => tt; s_one_sub := fun _ => tt; s_zero := tt; s_one := tt; s_leb := fun _ _ => false
|}.
Section Forget.
  Context {N : numsys}.
  Definition forget_array (a : array N) : array NoContents := mkA (a_dt a) (mkT (a_shape a) []).
  Definition forget_dict (d : dict (tree (array N))) : dict (tree (array NoContents)) :=
    map (fun kv => (fst kv, tmap forget_array (snd kv))) d.
  Definition forget (s : state N) : state NoContents :=
    mkState (N := NoContents) tt (forget_array (iterations s)) (forget_array (residuals s)) (forget_array (probabilities s))
      (forget_dict (defaults s)) (forget_dict (accumulators s)) (forget_dict (updates s)) tt (error_mode s).
  Definition forget_call (c : call N) : call NoContents :=
    match c with
    | CCache name item => CCache name (tmap forget_array item)
    | CIter h => CIter (forget_array h)
    | CReset => CReset
    end.
End Forget.
