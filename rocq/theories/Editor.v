(** * core/tensoreditor.py

    Validation functions run under [checkify]: each [checkify.check] records a boolean and
    execution continues; the first recorded failure is thrown at the end as JaxRuntimeError. A
    Python exception raised while the checks are gathered pre-empts them. So a validation
    function is modelled by [res (list bool)], the booleans of its checks in order. *)
From Verif Require Import Base PyTree Tensor Num Utils States Controller.

(** tensoreditor.py:22-24 [ErrorModes]: the two values. *)
Definition m_standard : string := "standard".
Definition m_silence : string := "silence".
Definition error_modes : list string := [m_standard; m_silence].

Section Editor.
  Context {N : numsys}.
  Notation st := (state N).
  Notation tr := (tree (array N)).

  (** tensoreditor.py:506-520: the two attributes. *)
  Record editor := mkEd { ed_state : st; ed_mode : string }.

  (** tensoreditor.py:152-163, 164-174 *)
  Definition check_same_shape (original new : array N) : bool :=
    shape_eqb (a_shape original) (a_shape new).
  Definition check_same_dtype (original new : array N) : bool :=
    dtype_eqb (a_dt original) (a_dt new).
  (** tensoreditor.py:176-192 [_validate_probability]: two checks *)
  Definition checks_probability (a : array N) : list bool :=
    [ negb (existsb (fun v => v_ltb N v (v_zero N)) (a_data a));
      negb (existsb (fun v => v_ltb N (v_one N) v) (a_data a)) ].
  (** tensoreditor.py:193-201 [_validate_is_natural_numbers] *)
  Definition check_natural (a : array N) : bool := forallb (v_leb N (v_zero N)) (a_data a).
  (** tensoreditor.py:202-211 [_validate_accumulator_exists]: a check on [defaults], a returned
      value from [accumulators]. *)
  Definition check_exists (s : st) (name : string) : bool := dmem name (defaults s).
  (** tensoreditor.py:212-233 [_validate_same_pytree_structure] *)
  Definition check_structure (original new : tr) : bool := are_pytree_structure_equal original new.
  (** tensoreditor.py:235-279 [_validate_pytree_leaves]: two checks per pair of zipped leaves *)
  Definition checks_leaves (original new : tr) : list bool :=
    concat (map2 (fun o n => [check_same_shape o n; check_same_dtype o n])
                 (leaves original) (leaves new)).

  (** tensoreditor.py:280-299 [_execute_validation] *)
  Definition execute_checks (e : editor) (checks : res (list bool)) : res unit :=
    if String.eqb (ed_mode e) m_standard then
      bs <- checks ;; guard (forallb (fun b => b) bs) JaxRuntimeError
    else Ok tt.

  (** tensoreditor.py:300-316 [set_probabilities] *)
  Definition set_probabilities (e : editor) (values : array N) : res editor :=
    let o := probabilities (ed_state e) in
    _ <- execute_checks e
           (Ok (check_same_shape o values :: check_same_dtype o values :: checks_probability values)) ;;
    s <- replace (ed_state e) (mkR None None None (Some values) None None None None None) ;;
    Ok (mkEd s (ed_mode e)).
  (** tensoreditor.py:318-335 [set_residuals] *)
  Definition set_residuals (e : editor) (values : array N) : res editor :=
    let o := residuals (ed_state e) in
    _ <- execute_checks e
           (Ok (check_same_shape o values :: check_same_dtype o values :: checks_probability values)) ;;
    s <- replace (ed_state e) (mkR None None (Some values) None None None None None None) ;;
    Ok (mkEd s (ed_mode e)).
  (** tensoreditor.py:337-353 [set_iterations] *)
  Definition set_iterations (e : editor) (values : array N) : res editor :=
    let o := iterations (ed_state e) in
    _ <- execute_checks e
           (Ok [check_same_shape o values; check_same_dtype o values; check_natural values]) ;;
    s <- replace (ed_state e) (mkR None (Some values) None None None None None None None) ;;
    Ok (mkEd s (ed_mode e)).
  (** tensoreditor.py:356-381 [set_epsilon] *)
  Definition set_epsilon (e : editor) (eps : scl N) : res editor :=
    _ <- execute_checks e (Ok [s_leb N (s_zero N) eps; s_leb N eps (s_one N)]) ;;
    s <- replace (ed_state e) (mkR (Some eps) None None None None None None None None) ;;
    Ok (mkEd s (ed_mode e)).

  (** tensoreditor.py:396-400 and 424-428: the checks of [set_accumulator] and [set_defaults],
      both against the accumulators. *)
  Definition checks_like_accumulator (s : st) (name : string) (value : tr) : res (list bool) :=
    if dmem name (accumulators s) then
      acc <- dlookup name (accumulators s) ;;
      Ok (check_exists s name :: check_structure acc value :: checks_leaves acc value)
    else Ok [check_exists s name].
  (** tensoreditor.py:383-405 [set_accumulator] *)
  Definition set_accumulator (e : editor) (name : string) (value : tr) : res editor :=
    _ <- execute_checks e (checks_like_accumulator (ed_state e) name value) ;;
    let accs := dset name value (accumulators (ed_state e)) in
    s <- replace (ed_state e) (mkR None None None None (Some accs) None None None None) ;;
    Ok (mkEd s (ed_mode e)).
  (** tensoreditor.py:406-433 [set_defaults] *)
  Definition set_defaults (e : editor) (name : string) (value : tr) : res editor :=
    _ <- execute_checks e (checks_like_accumulator (ed_state e) name value) ;;
    let dfs := dset name value (defaults (ed_state e)) in
    s <- replace (ed_state e) (mkR None None None None None (Some dfs) None None None) ;;
    Ok (mkEd s (ed_mode e)).
  (** tensoreditor.py:450-457 *)
  Definition checks_updates (s : st) (name : string) (values : tr) : res (list bool) :=
    if is_none values then Ok [check_exists s name]
    else
      def <- dlookup name (defaults s) ;;
      Ok (check_exists s name :: check_structure def values :: checks_leaves def values).
  (** tensoreditor.py:435-462 [set_updates] *)
  Definition set_updates (e : editor) (name : string) (values : tr) : res editor :=
    _ <- execute_checks e (checks_updates (ed_state e) name values) ;;
    let upds := dset name values (updates (ed_state e)) in
    s <- replace (ed_state e) (mkR None None None None None None (Some upds) None None) ;;
    Ok (mkEd s (ed_mode e)).

  (** tensoreditor.py:464-479 [edit_controller] and 481-496 [edit_save]: a controller and a save
      both carry just the state. *)
  Definition edit_save (s : st) (mode : string) : res editor :=
    _ <- guard (existsb (String.eqb mode) error_modes) ValueError ;; Ok (mkEd s mode).
  Definition edit_controller (c : st) (mode : string) : res editor :=
    _ <- guard (existsb (String.eqb mode) error_modes) ValueError ;; Ok (mkEd c mode).
  (** tensoreditor.py:498-505 [save], [build] *)
  Definition editor_save (e : editor) : st := ed_state e.
  Definition editor_build (e : editor) : st := load (ed_state e).

  (** tensoreditor.py:522-533 [flatten_editor], [unflatten_editor] *)
  Definition flatten_editor (e : editor) : list (pyleaf N) * (string * state_treedef) :=
    let '(flat, td) := tree_flatten_state (ed_state e) in (flat, (ed_mode e, td)).
  Definition unflatten_editor (aux : string * state_treedef) (flat : list (pyleaf N)) : res editor :=
    s <- tree_unflatten_state (snd aux) flat ;; Ok (mkEd s (fst aux)).
End Editor.
Arguments editor N : clear implicits.
