(** * Requested dtypes and JAX's [jax_enable_x64]

    By default JAX has no 64-bit types: [jnp.zeros(shape, float64)] and [jnp.full(shape, fill, dtype=float64)] warn and make float32
    arrays. [x64] is the flag. The model of the builder (Builder.v) honours every requested dtype, which is the case [x64 = true].
    JAX arrays handed in already have an available dtype; NumPy arrays are not modelled. *)
From Verif Require Import Base PyTree Tensor Num Utils States Controller Builder BuilderSpec.

Definition available (x64 : bool) (d : dtype) : dtype := match d with DF64 => if x64 then DF64 else DF32 | _ => d end.

Section Precision.
  Context {N : numsys}.
  Notation st := (state N).
  (** builder.py:410-457 [new_builder]: line 431 looks at the requested dtype, lines 440-442 make the arrays. *)
  Definition new_builder_x (x64 : bool) (em : option (option string)) (b : batch_arg) (cd : option dtype) (eps dep : scl N) : res st :=
    _ <- guard (match cd with None => true | Some d => is_floating d end) ValueError ;;
    new_builder_with em b (option_map (available x64) cd) eps dep.
  (** builder.py:404 [jnp.full(leaf, fill_value=fill, dtype=dtype)] in [define_accumulator_by_shape]; the other definitions make no arrays. *)
  Definition apply_xcall (x64 : bool) (s : st) (c : bcall N) : res st :=
    match c with
    | BShape name sh d fill => define_by_shape s name sh (available x64 d) fill
    | BDirect name t => define_directly s name t
    | BDelete name => delete_definition s name
    end.
  Definition xafter (x64 : bool) (s : st) (c : bcall N) : st := match apply_xcall x64 s c with Ok s' => s' | Err _ => s end.
  Definition xrun (x64 : bool) (s : st) (cs : list (bcall N)) : st := fold_left (xafter x64) cs s.
End Precision.
