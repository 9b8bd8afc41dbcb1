(** * Vocabulary: going on with an execution that has ended (no model of execute_act). *)
From Verif Require Import Base PyTree Tensor Num States Layers.

Section ResumeSpec.
  Context {N : numsys}.
  (** The layer [l] asked to go on from the controller [c] an earlier execution returned: its
      [make_controller] returns [c], its [run_iteration] is that of [l]. [lazy] is what
      [setup_lazy_parameters] does this time. *)
  Definition continuing (l : layer N) (c : state N) (lazy : state N -> tree (array N) -> res unit) : layer N :=
    mkLayer (fun _ _ => Ok (MCtrl c)) (l_run_iteration l) lazy.
End ResumeSpec.
