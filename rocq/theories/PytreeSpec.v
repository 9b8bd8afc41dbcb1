(** * Vocabulary: controllers as pytrees. [jax.tree_map] is written with the flattening that
    core/states.py:182-202 and core/controller.py:446-455 register; no code of the repository is modelled here. *)
From Verif Require Import Base PyTree Tensor Num States Controller Layers StateSpec.

Section PytreeSpec.
  Context {N : numsys}.
  Notation st := (state N).
  Notation tr := (tree (array N)).

  (** [jax.tree_util.tree_leaves(controller)] and [jax.tree_util.tree_structure(controller)] *)
  Definition tree_leaves (s : st) : list (pyleaf N) := fst (flatten_controller s).
  Definition tree_structure (s : st) := snd (flatten_controller s).
  (** [jax.tree_map(f, controller)] *)
  Definition tree_map (f : pyleaf N -> pyleaf N) (s : st) : res st :=
    unflatten_controller (tree_structure s) (map f (tree_leaves s)).
  Definition same_treedef (s1 s2 : st) : bool :=
    tdl_eqb (fst (tree_structure s1)) (fst (tree_structure s2)) && shape_eqb (snd (tree_structure s1)) (snd (tree_structure s2)).
  (** [jax.tree_map(f, controller1, controller2)]; different structures are a ValueError *)
  Definition tree_map2 (f : pyleaf N -> pyleaf N -> pyleaf N) (s1 s2 : st) : res st :=
    if same_treedef s1 s2 then
      unflatten_controller (tree_structure s1) (map (fun xy => f (fst xy) (snd xy)) (combine (tree_leaves s1) (tree_leaves s2)))
    else Err ValueError.

  (** A function of leaves made of one on arrays and one on Python floats; texts are left alone. *)
  Definition on_leaves (f : array N -> array N) (g : scl N -> scl N) (l : pyleaf N) : pyleaf N :=
    match l with LArr a => LArr (f a) | LScl x => LScl (g x) | LStr m => LStr m end.
  Definition on_leaves2 (f : array N -> array N -> array N) (g : scl N -> scl N -> scl N) (l l' : pyleaf N) : pyleaf N :=
    match l, l' with LArr a, LArr b => LArr (f a b) | LScl x, LScl y => LScl (g x y) | _, _ => l end.

  (** [s'] is [s] with every array replaced by its image and nothing else changed. *)
  Record image (f : array N -> array N) (g : scl N -> scl N) (s s' : st) : Prop := {
    im_eps : epsilon s' = g (epsilon s);
    im_i : iterations s' = f (iterations s);
    im_r : residuals s' = f (residuals s);
    im_p : probabilities s' = f (probabilities s);
    im_def : forall k, dget k (defaults s') = option_map (tmap f) (dget k (defaults s));
    im_acc : forall k, dget k (accumulators s') = option_map (tmap f) (dget k (accumulators s));
    im_upd : forall k, dget k (updates s') = option_map (tmap f) (dget k (updates s));
    im_dep : depression_constant s' = g (depression_constant s);
    im_mode : error_mode s' = error_mode s
  }.
  (** [t'] has the common structure of [t1] and [t2], and in every place the combination of theirs. *)
  Definition tree_image2 (f : array N -> array N -> array N) (t1 t2 t' : tr) : Prop :=
    structure t' = structure t1 /\ structure t' = structure t2 /\
    leaves t' = map (fun ab => f (fst ab) (snd ab)) (combine (leaves t1) (leaves t2)).
  Definition entry_image2 f (o1 o2 o' : option tr) : Prop :=
    match o1, o2, o' with
    | None, None, None => True
    | Some t1, Some t2, Some t' => tree_image2 f t1 t2 t'
    | _, _, _ => False
    end.
  Record image2 (f : array N -> array N -> array N) (g : scl N -> scl N -> scl N) (s1 s2 s' : st) : Prop := {
    i2_eps : epsilon s' = g (epsilon s1) (epsilon s2);
    i2_i : iterations s' = f (iterations s1) (iterations s2);
    i2_r : residuals s' = f (residuals s1) (residuals s2);
    i2_p : probabilities s' = f (probabilities s1) (probabilities s2);
    i2_def : forall k, entry_image2 f (dget k (defaults s1)) (dget k (defaults s2)) (dget k (defaults s'));
    i2_acc : forall k, entry_image2 f (dget k (accumulators s1)) (dget k (accumulators s2)) (dget k (accumulators s'));
    i2_upd : forall k, entry_image2 f (dget k (updates s1)) (dget k (updates s2)) (dget k (updates s'));
    i2_dep : depression_constant s' = g (depression_constant s1) (depression_constant s2);
    i2_mode : error_mode s' = error_mode s1
  }.
  (** The same names with trees of the same structure, in any order; nothing about shapes, dtypes and values. *)
  Definition same_entries (d1 d2 : dict tr) : Prop :=
    forall k, option_map structure (dget k d1) = option_map structure (dget k d2).
  Definition same_layout (s1 s2 : st) : Prop :=
    same_entries (defaults s1) (defaults s2) /\ same_entries (accumulators s1) (accumulators s2) /\
    same_entries (updates s1) (updates s2) /\ (error_mode s1 = None <-> error_mode s2 = None).
  (** The array [a] is one of the data of the controller. *)
  Definition in_entries (a : array N) (d : dict tr) : Prop := exists k t, dget k d = Some t /\ In a (leaves t).
  Definition holds (s : st) (a : array N) : Prop :=
    a = iterations s \/ a = residuals s \/ a = probabilities s \/
    in_entries a (defaults s) \/ in_entries a (accumulators s) \/ in_entries a (updates s).
End PytreeSpec.
