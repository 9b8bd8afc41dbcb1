(** * core/viewer.py

    An [ACTViewer] stores one attribute, the state (viewer.py:208-217). *)
From Verif Require Import Base PyTree Tensor Num Utils States Controller.

Section Viewer.
  Context {N : numsys}.
  Notation st := (state N).
  Notation tr := (tree (array N)).

  (** viewer.py:84-132 [transform], with any function on arrays that may raise. The guard of
      [update_applier] (112-115) cannot fire: [tree_map] never calls it on [None]. Lines 117-119
      build the updates from [self.defaults]. *)
  Definition transform (s : st) (f : array N -> res (array N)) : res st :=
    '(its, ress, probs, accs, dfs, upds) <- rewrap RuntimeError (
       its <- f (iterations s) ;;
       ress <- f (residuals s) ;;
       probs <- f (probabilities s) ;;
       accs <- dmapM (tree_mapM f) (accumulators s) ;;
       dfs <- dmapM (tree_mapM f) (defaults s) ;;
       upds <- dmapM (tree_mapM f) (defaults s) ;;
       Ok (its, ress, probs, accs, dfs, upds)) ;;
    replace s (mkR None (Some its) (Some ress) (Some probs) (Some accs) (Some dfs) (Some upds)
                   None None).

  (** viewer.py:156-158: the function [mask_data] hands to [transform]. *)
  Definition mask_leaf (mask : tensor bool) (a : array N) : res (array N) :=
    m <- setup_left_broadcast mask (a_shape a) ;; a_bool_mul m a.
  (** viewer.py:134-160 [mask_data]. The mask is given by its dtype and, when the dtype is bool,
      its contents; for another dtype the contents do not matter. *)
  Definition mask_data (s : st) (mask_dtype : dtype) (mask : tensor bool) : res st :=
    _ <- guard (dtype_eqb mask_dtype DBool) ValueError ;;
    _ <- guard (shape_eqb (shape mask) (a_shape (probabilities s))) ValueError ;;
    transform s (mask_leaf mask).

  (** viewer.py:162-174 and 176-191. [halted_batches] (79-81) is defined as in the controller. *)
  Definition unhalted_only (s : st) : res st := mask_data s DBool (tnot (halted_batches s)).
  Definition halted_only (s : st) : res st := mask_data s DBool (halted_batches s).

  (** viewer.py:219-228 [flatten_viewer], [unflatten_viewer] *)
  Definition flatten_viewer (s : st) := tree_flatten_state s.
  Definition unflatten_viewer (aux : state_treedef) (flat : list (pyleaf N)) : res st :=
    tree_unflatten_state aux flat.
End Viewer.
