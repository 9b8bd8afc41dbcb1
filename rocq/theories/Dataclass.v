(** * Registered dataclasses inside a state: core/states.py:182-200

    A class registered with JAX can be a dataclass (flax.struct.dataclass, chex.dataclass). All of the
    repository treats its instances as JAX does, as nodes of their class; only [state_flatten] does not:
    it calls [dataclasses.asdict] (states.py:183), which turns every dataclass instance it meets on its way
    through tuples, lists, dicts and dataclasses into a dict, and the dict is what [tree_flatten] then
    sees (188). An instance is a node [NNamed cls] with one child per field, in the order of declaration. *)
From Verif Require Import Base PyTree Tensor Num Utils States Controller.

(** Which classes are dataclasses, and the names of their fields. *)
Definition dataclasses := string -> option (list string).

(** [dataclasses.asdict] on a value. A dict in a pytree is represented by its sorted items (PyTree.v). *)
Fixpoint asdict {L} (dc : dataclasses) (t : tree L) : tree L :=
  match t with
  | Leaf l => Leaf l
  | Node n cs =>
      let cs' := map (asdict dc) cs in
      match n with
      | NNamed cls =>
          match dc cls with
          | Some fields => let d := sort_items (combine fields cs') in Node (NDict (dkeys d)) (dvals d)
          | None => Node n cs'
          end
      | _ => Node n cs'
      end
  end.

Section Dataclass.
  Context {N : numsys}.
  Notation st := (state N).

  Definition asdict_table {L} (dc : dataclasses) (d : dict (tree L)) : dict (tree L) :=
    map (fun kv => (fst kv, asdict dc (snd kv))) d.
  (** states.py:183: the fields of [asdict(state)] *)
  Definition asdict_state (dc : dataclasses) (s : st) : st :=
    mkState (epsilon s) (iterations s) (residuals s) (probabilities s) (asdict_table dc (defaults s))
      (asdict_table dc (accumulators s)) (asdict_table dc (updates s)) (depression_constant s) (error_mode s).
  (** states.py:182-192 [state_flatten] as registered (202), with the [asdict] of line 183 *)
  Definition flatten_with_asdict (dc : dataclasses) (s : st) : list (pyleaf N) * state_treedef :=
    tree_flatten_state (asdict_state dc s).
  (** A controller that enters or leaves [jax.jit], [lax.while_loop], [lax.cond], ...: it is flattened and
      rebuilt (controller.py:446-455). *)
  Definition across_boundary (dc : dataclasses) (s : st) : res st :=
    let '(flat, td) := flatten_with_asdict dc (save s) in unflatten_controller td flat.
End Dataclass.
