(** * Adaptive computation time on single numbers, for any arithmetic.

    Nothing here mentions tensors, trees or dictionaries of a controller, apart from the reading of
    a call history at the end. *)
From Verif Require Import Base PyTree Tensor Num States Controller Wf History ElementSpec.

Section Scalar.
  Context {N : numsys}.
  Notation num := (val N).

  (** What a controller keeps for one batch element. *)
  Record stats := mkStats { cumulative : num; remainder : num; steps : num }.
  Definition stats0 : stats := mkStats (v_zero N) (v_zero N) (v_zero N).

  Section Program.
    (** the halting threshold and the depression constant *)
    Context (thr dep : num).

    Definition is_over (s : stats) : bool := v_ltb N thr (cumulative s).
    (** the halting value, clamped and depressed *)
    Definition offered (v : num) : num := v_mul N dep (v_min N (v_one N) (v_max N (v_zero N) v)).
    Definition goes_over (s : stats) (v : num) : bool := v_ltb N thr (v_add N (offered v) (cumulative s)).
    Definition used (s : stats) (v : num) : num :=
      if goes_over s v then v_sub N (v_one N) (cumulative s) else offered v.
    Definition stats_step (s : stats) (v : num) : stats :=
      mkStats (v_add N (cumulative s) (used s v))
              (if goes_over s v && negb (is_over s) then v_sub N (v_one N) (cumulative s) else remainder s)
              (if is_over s then steps s else v_add N (steps s) (v_one N)).
    (** one number of an accumulator *)
    Definition value_step (s : stats) (a v u : num) : num :=
      if is_over s then a else v_add N a (v_mul N (used s v) u).
    (** resetting multiplies the statistics by 0 or 1 and puts the default back *)
    Definition switch (s : stats) : num := if is_over s then v_zero N else v_one N.
    Definition stats_reset (s : stats) : stats :=
      mkStats (v_mul N (cumulative s) (switch s)) (v_mul N (remainder s) (switch s)) (v_mul N (steps s) (switch s)).
    Definition value_reset (s : stats) (a d : num) : num := if is_over s then d else a.

    (** Programs: [Some x] is an iteration, [None] a reset. *)
    Definition stats_event (s : stats) (e : option num) : stats :=
      match e with Some v => stats_step s v | None => stats_reset s end.
    Definition stats_run (s : stats) (es : list (option num)) : stats := fold_left stats_event es s.
    Fixpoint value_run (d : num) (s : stats) (a : num) (es : list (option (num * num))) : num :=
      match es with
      | [] => a
      | Some (v, u) :: es' => value_run d (stats_step s v) (value_step s a v u) es'
      | None :: es' => value_run d (stats_reset s) (value_reset s a d) es'
      end.
    (** Without resets: weight and update of every step made while the element was running. *)
    Fixpoint shares (s : stats) (es : list (num * num)) : list (num * num) :=
      match es with
      | [] => []
      | (v, u) :: es' => (if is_over s then [] else [(used s v, u)]) ++ shares (stats_step s v) es'
      end.
    Fixpoint weights (s : stats) (vs : list num) : list num :=
      match vs with
      | [] => []
      | v :: vs' => (if is_over s then [] else [used s v]) ++ weights (stats_step s v) vs'
      end.
  End Program.

  (** ** Reading the program of batch element [i] off a history of calls that returned *)
  Record script := mkScript { waiting : dict (tree (array N)); lines : list (option (num * dict (tree (array N)))) }.
  Definition script_step (i : nat) (g : script) (c : call N) : script :=
    match c with
    | CCache name item => mkScript ((name, item) :: waiting g) (lines g)
    | CIter h =>
        match nth_error (a_data h) i with
        | Some v => mkScript [] (lines g ++ [Some (v, waiting g)])
        | None => mkScript [] (lines g)
        end
    | CReset => mkScript (waiting g) (lines g ++ [None])
    end.
  Definition script_of (i : nat) (cs : list (call N)) : script := fold_left (script_step i) cs (mkScript [] []).
  (** the program of the statistics of element [i] *)
  Definition stats_program (i : nat) (cs : list (call N)) : list (option num) :=
    map (option_map fst) (lines (script_of i cs)).
  (** [prog] is the program of entry [j] of leaf [l] of accumulator [k], which belongs to element [i] *)
  Definition value_program (i : nat) (k : string) (l j : nat) (cs : list (call N)) (prog : list (option (num * num))) : Prop :=
    map (option_map (fun e => (fst e, update_at k l j (snd e)))) (lines (script_of i cs)) =
    map (option_map (fun e => (fst e, Some (snd e)))) prog.
End Scalar.
Arguments stats N : clear implicits.
Arguments script N : clear implicits.
