{
 "claims": [
  {
   "property": "C01",
   "status": "proved",
   "theorems": [
    "C01_probability_invariant"
   ],
   "note": ""
  },
  {
   "property": "C02",
   "status": "proved",
   "theorems": [
    "C02_float_probability",
    "C02_compiled_probability"
   ],
   "note": ""
  },
  {
   "property": "C03",
   "status": "proved",
   "theorems": [
    "C03_halted_elements_frozen",
    "C03_halted_elements_frozen_forever",
    "C03_float_frozen_forever"
   ],
   "note": ""
  },
  {
   "property": "C04",
   "status": "proved",
   "theorems": [
    "C04_halting_is_permanent",
    "C04_float_halting_is_permanent"
   ],
   "note": ""
  },
  {
   "property": "C05",
   "status": "proved",
   "theorems": [
    "C05_controller_computes_graves_act",
    "C05_every_element_is_covered"
   ],
   "note": ""
  },
  {
   "property": "C06",
   "status": "proved",
   "theorems": [
    "C06_halted_output_is_convex"
   ],
   "note": ""
  },
  {
   "property": "C07",
   "status": "proved",
   "theorems": [
    "C07_residual_and_iterations",
    "C07_float_residual"
   ],
   "note": ""
  },
  {
   "property": "C08",
   "status": "proved",
   "theorems": [
    "C08_batch_elements_independent",
    "C08_iterate_same_outcome"
   ],
   "note": ""
  },
  {
   "property": "C09",
   "status": "proved",
   "theorems": [
    "C09_commits_exactly_once",
    "C09_one_update_per_iteration"
   ],
   "note": ""
  },
  {
   "property": "C10",
   "status": "proved",
   "theorems": [
    "C10_cache_update_precise",
    "C10_any_caching_order",
    "C10_flags_say_what_is_cached"
   ],
   "note": ""
  },
  {
   "property": "C11",
   "status": "proved",
   "theorems": [
    "C11_structure_is_stable"
   ],
   "note": ""
  },
  {
   "property": "C12",
   "status": "proved",
   "theorems": [
    "C12_clamping",
    "C12_float_clamping"
   ],
   "note": ""
  },
  {
   "property": "C13",
   "status": "proved",
   "theorems": [
    "C13_iterate_succeeds"
   ],
   "note": ""
  },
  {
   "property": "C14",
   "status": "partial",
   "theorems": [
    "C14_refuted",
    "C14_partial"
   ],
   "note": "The full property is false of the code: C14_refuted shows that iterate_act fails with an error whenever a floating dtype is wider or incomparable with the accumulator's. C14_partial proves success for the documented combinations."
  },
  {
   "property": "C15",
   "status": "proved",
   "theorems": [
    "C15_reset_exact",
    "C15_float_reset"
   ],
   "note": ""
  },
  {
   "property": "C16",
   "status": "partial",
   "theorems": [
    "C16_refuted",
    "C16_partial"
   ],
   "note": "The full property is false of the code: C16_refuted shows that reset_batches raises AttributeError on every idle batched controller with a non-leaf accumulator. C16_partial characterises exactly when it succeeds."
  },
  {
   "property": "C17",
   "status": "proved",
   "theorems": [
    "C17_reset_guarded",
    "C17_reset_idempotent",
    "C17_float_reset_idempotent"
   ],
   "note": ""
  },
  {
   "property": "C18",
   "status": "proved",
   "theorems": [
    "C18_depression_scales",
    "C18_depression_zero",
    "C18_float_depression_zero"
   ],
   "note": ""
  },
  {
   "property": "C19",
   "status": "partial",
   "theorems": [
    "C19_refuted",
    "C19_refuted_unhalts",
    "C19_partial"
   ],
   "note": "The full property is false of the code: a negative depression constant is accepted; the first iteration then makes probabilities negative (C19_refuted) and a halted element can become un-halted (C19_refuted_unhalts). C19_partial proves the invariant for every non-negative constant."
  },
  {
   "property": "C20",
   "status": "proved",
   "theorems": [
    "C20_enough_mass_halts"
   ],
   "note": ""
  },
  {
   "property": "C21",
   "status": "partial",
   "theorems": [
    "C21_refuted",
    "C21_refuted_nan",
    "C21_partial"
   ],
   "note": "The full property is false of the code: an epsilon of at most lost_epsilon (2^-(prec+1) + 2^-54, or 2^-54 for 53 bits) passes the check of new_builder and no element ever halts (C21_refuted; not stated for the hypothetical format of 52 bits), the same for NaN (C21_refuted_nan). C21_partial: every epsilon above that bound lets a full strength iteration halt, so the bound is exact."
  },
  {
   "property": "C22",
   "status": "partial",
   "theorems": [
    "C22_refuted",
    "C22_partial"
   ],
   "note": "The full property is false of the code: new_builder never returns (C22_refuted), because the error_mode field is not passed. C22_partial proves the documented result with the field supplied."
  },
  {
   "property": "C23",
   "status": "proved",
   "theorems": [
    "C23_new_builder_rejects",
    "C23_new_builder_rejects_any_arithmetic"
   ],
   "note": ""
  },
  {
   "property": "C24",
   "status": "proved",
   "theorems": [
    "C24_definitions_checked"
   ],
   "note": ""
  },
  {
   "property": "C25",
   "status": "proved",
   "theorems": [
    "C25_definition_local",
    "C25_deletion_local"
   ],
   "note": ""
  },
  {
   "property": "C26",
   "status": "proved",
   "theorems": [
    "C26_definition_by_shape",
    "C26_bad_shapes"
   ],
   "note": ""
  },
  {
   "property": "C27",
   "status": "proved",
   "theorems": [
    "C27_builders_make_well_formed_controllers"
   ],
   "note": ""
  },
  {
   "property": "C28",
   "status": "proved",
   "theorems": [
    "C28_masking",
    "C28_masking_any_arithmetic"
   ],
   "note": ""
  },
  {
   "property": "C29",
   "status": "partial",
   "theorems": [
    "C29_refuted",
    "C29_partial"
   ],
   "note": "The full property is false of the code: a hidden NaN or infinite entry is shown as NaN (C29_refuted). C29_partial: hidden finite entries are zero, kept entries unchanged."
  },
  {
   "property": "C30",
   "status": "proved",
   "theorems": [
    "C30_float_partition",
    "C30_partition"
   ],
   "note": ""
  },
  {
   "property": "C31",
   "status": "partial",
   "theorems": [
    "C31_refuted",
    "C31_partial"
   ],
   "note": "The full property is false of the code: transform computes the viewed updates from the defaults, not from the pending updates (C31_refuted). C31_partial proves every other field exact."
  },
  {
   "property": "C32",
   "status": "proved",
   "theorems": [
    "C32_float_masks_compose",
    "C32_masks_compose",
    "C32_mask_idempotent",
    "C32_complement_shows_nothing"
   ],
   "note": ""
  },
  {
   "property": "C33",
   "status": "partial",
   "theorems": [
    "C33_setters_any_arithmetic",
    "C33_setters_exact",
    "C33_refuted_nan"
   ],
   "note": "Proved for every arithmetic in terms of its comparisons and for exact arithmetic. In IEEE arithmetic the property is false: NaN probabilities are accepted and then nothing halts (C33_refuted_nan)."
  },
  {
   "property": "C34",
   "status": "partial",
   "theorems": [
    "C34_refuted",
    "C34_partial",
    "C34_unknown_name",
    "C34_none_safe_without_none"
   ],
   "note": "The full property is false of the code: every tensor accumulator or default can be replaced by None, and a None accumulator by a tensor of any shape (C34_refuted). C34_partial proves acceptance exactly for like trees on operands without misplaced None."
  },
  {
   "property": "C35",
   "status": "proved",
   "theorems": [
    "C35_silence",
    "C35_modes"
   ],
   "note": ""
  },
  {
   "property": "C36",
   "status": "partial",
   "theorems": [
    "C36_refuted",
    "C36_partial"
   ],
   "note": "The full property is false of the code: with an unknown name every non-None value raises KeyError instead of the checkify error (C36_refuted). C36_partial proves the property for known names and operands without misplaced None."
  },
  {
   "property": "C37",
   "status": "proved",
   "theorems": [
    "C37_sessions_keep_invariant",
    "C37_sessions_stay_in_range"
   ],
   "note": ""
  },
  {
   "property": "C38",
   "status": "proved",
   "theorems": [
    "C38_round_trip",
    "C38_rebuilt_behaves_the_same",
    "C38_second_round_trip_is_identity"
   ],
   "note": ""
  },
  {
   "property": "C39",
   "status": "partial",
   "theorems": [
    "C39_refuted",
    "C39_execute_act_refused",
    "C39_partial"
   ],
   "note": "The full property is false of the code: a string error_mode is a pytree leaf, so such a controller cannot be a jit operand or loop carry (C39_refuted, C39_execute_act_refused). C39_partial: all leaves are numeric exactly when error_mode is None."
  },
  {
   "property": "C40",
   "status": "proved",
   "theorems": [
    "C40_save_load",
    "C40_reading"
   ],
   "note": ""
  },
  {
   "property": "C41",
   "status": "proved",
   "theorems": [
    "C41_nothing_modified",
    "C41_contents_kept",
    "C41_sharing_is_invisible"
   ],
   "note": ""
  },
  {
   "property": "C42",
   "status": "partial",
   "theorems": [
    "C42_refuted",
    "C42_refuted_delete",
    "C42_partial",
    "C42_partial_assignment",
    "C42_partial_deletion"
   ],
   "note": "The full property is false of the code: assigning _is_immutable succeeds and then any attribute can be assigned (C42_refuted); del succeeds as well (C42_refuted_delete). C42_partial: every other assignment raises and changes nothing, at any point of any history."
  },
  {
   "property": "C43",
   "status": "proved",
   "theorems": [
    "C43_can_right_broadcast",
    "C43_symmetric"
   ],
   "note": ""
  },
  {
   "property": "C44",
   "status": "proved",
   "theorems": [
    "C44_setup_left_broadcast",
    "C44_left_broadcast_repeats"
   ],
   "note": ""
  },
  {
   "property": "C45",
   "status": "proved",
   "theorems": [
    "C45_broadcast_pytree_shape",
    "C45_prefix_decided"
   ],
   "note": ""
  },
  {
   "property": "C46",
   "status": "proved",
   "theorems": [
    "C46_execute_binary_operator",
    "C46_equal_structure"
   ],
   "note": ""
  },
  {
   "property": "C47",
   "status": "proved",
   "theorems": [
    "C47_merge_pytrees"
   ],
   "note": ""
  },
  {
   "property": "C48",
   "status": "partial",
   "theorems": [
    "C48_refuted",
    "C48_partial",
    "C48_equivalence"
   ],
   "note": "The full property is false of the code: a None node and a leaf compare equal (C48_refuted). C48_partial proves exactness on trees without None, C48_equivalence that it is an equivalence."
  },
  {
   "property": "C49",
   "status": "partial",
   "theorems": [
    "C49_refuted",
    "C49_refuted_shapes",
    "C49_partial"
   ],
   "note": "The full property is false of the code: structure is ignored (C49_refuted) and shapes only need to broadcast (C49_refuted_shapes). C49_partial characterises the result by leaves."
  },
  {
   "property": "C50",
   "status": "proved",
   "theorems": [
    "C50_at_most_max_iterations",
    "C50_loop_terminates"
   ],
   "note": ""
  },
  {
   "property": "C51",
   "status": "proved",
   "theorems": [
    "C51_result_of_documented_loop",
    "C51_documented_loop_is_executed"
   ],
   "note": ""
  },
  {
   "property": "C52",
   "status": "proved",
   "theorems": [
    "C52_contract_checked",
    "C52_exceptions_and_no_checks",
    "C52_unchecked",
    "C52_unchecked_make"
   ],
   "note": ""
  },
  {
   "property": "C53",
   "status": "partial",
   "theorems": [
    "C53_refuted",
    "C53_partial"
   ],
   "note": "The full property is false of the code: the wrapper inspects the incoming controller, so it accepts any returned controller (C53_refuted). C53_partial: inside execute_act a first iteration that leaves an update pending is still stopped by the loop carry check."
  },
  {
   "property": "C54",
   "status": "proved",
   "theorems": [
    "C54_make_controller_checked",
    "C54_execute_act_checks"
   ],
   "note": ""
  },
  {
   "property": "C55",
   "status": "proved",
   "theorems": [
    "C55_probability_floor_halts"
   ],
   "note": ""
  },
  {
   "property": "C56",
   "status": "partial",
   "theorems": [
    "C56_refuted"
   ],
   "note": "The full property is false of the code: the validators raise NameError, replace(depression_constant/error_mode) raises AttributeError and validate_residuals checks nothing, for every operand (C56_refuted). There is no part that holds."
  },
  {
   "property": "C57",
   "status": "proved",
   "theorems": [
    "C57_replace_objects",
    "C57_replace",
    "C57_replace_nothing",
    "C57_replace_last_wins"
   ],
   "note": ""
  },
  {
   "property": "C58",
   "status": "partial",
   "theorems": [
    "C58_refuted",
    "C58_partial",
    "C58_float_refuted"
   ],
   "note": "The full property is false of the code: set_epsilon accepts 0, after which no element halts in any history (C58_refuted); in IEEE arithmetic the same holds for every epsilon up to lost_epsilon (C58_float_refuted). C58_partial proves halting for 0 < epsilon <= 1 in exact arithmetic; C21_partial covers IEEE arithmetic above lost_epsilon."
  },
  {
   "property": "C59",
   "status": "proved",
   "theorems": [
    "C59_lazy_setup_changes_nothing"
   ],
   "note": ""
  },
  {
   "property": "C60",
   "status": "partial",
   "theorems": [
    "C60_refuted",
    "C60_partial",
    "C60_partial_sharp"
   ],
   "note": "The full property is false of the code in floating point: probabilities of at most 2^-(prec+1) are lost (C60_refuted). C60_partial_sharp: all effective probabilities above that bound halt the element within 2^(prec+2) iterations, so the bound is exact; C60_partial: within 2^(prec+1) for probabilities of at least 2^-prec."
  },
  {
   "property": "C61",
   "status": "partial",
   "theorems": [
    "C61_refuted",
    "C61_partial"
   ],
   "note": "The full property is false of the code in floating point: the count stops at 2^prec (C61_refuted). C61_partial: it is exact up to 2^prec."
  },
  {
   "property": "C62",
   "status": "partial",
   "theorems": [
    "C62_refuted",
    "C62_refuted_save",
    "C62_partial"
   ],
   "note": "The full property is false of the code: the successor of cache_update shares the accumulators dictionary with the older controller (C62_refuted), and save() returns the mutable internal state (C62_refuted_save). C62_partial names the dictionaries that are never shared."
  },
  {
   "property": "C63",
   "status": "proved",
   "theorems": [
    "C63_one_call",
    "C63_batching_is_transparent",
    "C63_element_alone"
   ],
   "note": ""
  },
  {
   "property": "C64",
   "status": "proved",
   "theorems": [
    "C64_every_element_runs_the_scalar_program",
    "C64_halted_batches"
   ],
   "note": ""
  },
  {
   "property": "C65",
   "status": "proved",
   "theorems": [
    "C65_larger_probabilities_halt_no_later",
    "C65_float"
   ],
   "note": ""
  },
  {
   "property": "C66",
   "status": "proved",
   "theorems": [
    "C66_weights_add_up"
   ],
   "note": ""
  },
  {
   "property": "C67",
   "status": "proved",
   "theorems": [
    "C67_accumulator_error"
   ],
   "note": ""
  },
  {
   "property": "C68",
   "status": "proved",
   "theorems": [
    "C68_halting_decision"
   ],
   "note": ""
  },
  {
   "property": "C69",
   "status": "proved",
   "theorems": [
    "C69_residual_at_least_epsilon",
    "C69_float"
   ],
   "note": ""
  },
  {
   "property": "C70",
   "status": "proved",
   "theorems": [
    "C70_one_call",
    "C70_accumulators_do_not_interfere",
    "C70_parts_decide",
    "C70_halting_ignores_updates"
   ],
   "note": ""
  },
  {
   "property": "C71",
   "status": "proved",
   "theorems": [
    "C71_execute_act_is_a_history",
    "C71_execute_act_returns",
    "C71_execute_act_computes_act"
   ],
   "note": ""
  },
  {
   "property": "C72",
   "status": "proved",
   "theorems": [
    "C72_execution_is_batching_transparent",
    "C72_other_bound_if_halted",
    "C72_element_alone",
    "C72_float_execution_is_batching_transparent"
   ],
   "note": ""
  },
  {
   "property": "C73",
   "status": "proved",
   "theorems": [
    "C73_one_call",
    "C73_history",
    "C73_evaluated_without_contents",
    "C73_viewer",
    "C73_builder",
    "C73_silent_editor"
   ],
   "note": ""
  },
  {
   "property": "C74",
   "status": "proved",
   "theorems": [
    "C74_execute_act",
    "C74_fails_at_once_or_never",
    "C74_docstring_layers"
   ],
   "note": ""
  },
  {
   "property": "C75",
   "status": "proved",
   "theorems": [
    "C75_results_are_locally_affine",
    "C75_jump_at_the_threshold"
   ],
   "note": ""
  },
  {
   "property": "C76",
   "status": "proved",
   "theorems": [
    "C76_updates_do_not_influence_halting",
    "C76_outputs_are_linear_in_the_updates"
   ],
   "note": ""
  },
  {
   "property": "C77",
   "status": "partial",
   "theorems": [
    "C77_refuted",
    "C77_refuted_cached",
    "C77_refuted_handed_out",
    "C77_partial_nothing_written",
    "C77_partial_ownership",
    "C77_partial",
    "C77_partial_careful",
    "C77_partial_iterate",
    "C77_partial_reset",
    "C77_partial_transform"
   ],
   "note": "The full property is false of the code: whatever the user makes of a container after passing it to define or cache_update, or after getting it from controller[name], is what the controller then contains (C77_refuted, C77_refuted_cached, C77_refuted_handed_out). C77_partial: programs that write only to containers of their own behave as if pytrees were values; C77_partial_careful with the weakest such discipline; C77_partial_iterate, C77_partial_reset and C77_partial_transform name what is never shared."
  },
  {
   "property": "C78",
   "status": "partial",
   "theorems": [
    "C78_partial",
    "C78_partial_survivors",
    "C78_partial_other_epsilon",
    "C78_refuted",
    "C78_partial_execute_act"
   ],
   "note": "The full property is false of the code in JAX's default 32 bit mode: for every epsilon that does not survive, one iteration makes every element halt in one world and none in the other (C78_refuted; 0.09 with float32 in C78_refuted_case). C78_partial and C78_partial_execute_act: with settings that survive both worlds agree bit for bit; C78_partial_survivors says which do; C78_partial_other_epsilon: always the behaviour of an epsilon at most 2^-24 + 2^-(prec+1) away."
  },
  {
   "property": "C79",
   "status": "proved",
   "theorems": [
    "C79_leaves",
    "C79_tree_map",
    "C79_tree_structure",
    "C79_two_controllers",
    "C79_wrong_number_of_leaves"
   ],
   "note": ""
  },
  {
   "property": "C80",
   "status": "proved",
   "theorems": [
    "C80_names_are_labels",
    "C80_names_are_labels_on_objects",
    "C80_indexing"
   ],
   "note": ""
  },
  {
   "property": "C81",
   "status": "proved",
   "theorems": [
    "C81_wrapper",
    "C81_like_direct",
    "C81_editor_validation"
   ],
   "note": ""
  },
  {
   "property": "C82",
   "status": "proved",
   "theorems": [
    "C82_statistics",
    "C82_like_a_core_controller",
    "C82_entries",
    "C82_accumulator_error"
   ],
   "note": ""
  },
  {
   "property": "C83",
   "status": "proved",
   "theorems": [
    "C83_lines",
    "C83_nothing_lost",
    "C83_nesting"
   ],
   "note": ""
  },
  {
   "property": "C84",
   "status": "partial",
   "theorems": [
    "C84_partial_exactly_without_dataclasses",
    "C84_refuted",
    "C84_partial_eager",
    "C84_refuted_wrong_field"
   ],
   "note": "The full property is false of the code: every accumulator with a dataclass instance in it has another structure after a boundary (C84_refuted), and the instance handed to the next cache_update is added in declaration order to fields in alphabetical order (C84_refuted_wrong_field, C84_case_boundary). C84_partial_exactly_without_dataclasses: the controller is preserved iff it holds no instance; C84_partial_eager: without a boundary, instances are added field by field and stay instances."
  },
  {
   "property": "C85",
   "status": "proved",
   "theorems": [
    "C85_same_outcomes",
    "C85_setters",
    "C85_setter_texts_differ",
    "C85_definitions",
    "C85_new_builder",
    "C85_caching",
    "C85_iteration",
    "C85_reset"
   ],
   "note": ""
  },
  {
   "property": "C86",
   "status": "proved",
   "theorems": [
    "C86_execution",
    "C86_compiled_execution",
    "C86_compiled_execution_returns",
    "C86_thresholds",
    "C86_stops_by_itself",
    "C86_compiled_stops_by_itself"
   ],
   "note": ""
  },
  {
   "property": "C87",
   "status": "proved",
   "theorems": [
    "C87_exact",
    "C87_float",
    "C87_tolerances",
    "C87_reflexive_unless_nan",
    "C87_not_symmetric"
   ],
   "note": ""
  },
  {
   "property": "C88",
   "status": "proved",
   "theorems": [
    "C88_as_if_in_turn",
    "C88_contents_kept",
    "C88_every_call_ends",
    "C88_no_call_waits"
   ],
   "note": ""
  },
  {
   "property": "C89",
   "status": "proved",
   "theorems": [
    "C89_continued",
    "C89_spare_iterations",
    "C89_halted_elements_are_final",
    "C89_compiled_continued",
    "C89_compiled_spare_iterations",
    "C89_float_halted_elements_are_final"
   ],
   "note": ""
  },
  {
   "property": "C90",
   "status": "proved",
   "theorems": [
    "C90_everything_is_consistent",
    "C90_consistent_with_threads",
    "C90_everything_is_in_range",
    "C90_cannot_fail",
    "C90_without_none",
    "C90_float_everything_is_in_range"
   ],
   "note": ""
  },
  {
   "property": "C91",
   "status": "proved",
   "theorems": [
    "C91_verdict_is_independent",
    "C91_last_edit_wins",
    "C91_nothing_else_changes",
    "C91_order_does_not_matter",
    "C91_rewriting_changes_nothing",
    "C91_checkpoints_can_be_restored",
    "C91_runs_can_be_restored",
    "C91_float_runs_can_be_restored"
   ],
   "note": ""
  },
  {
   "property": "C92",
   "status": "partial",
   "theorems": [
    "C92_same_outcomes",
    "C92_make_controller",
    "C92_run_iteration",
    "C92_refuted",
    "C92_partial",
    "C92_texts_differ"
   ],
   "note": "The full property is false of the code: whether updates were committed is looked up in the controller that run_iteration was given, not in the one it returned, so a layer that commits everything is told it never committed, and one that leaves updates waiting is told nothing (C92_refuted). C92_make_controller and C92_run_iteration say exactly what is told and when; C92_partial: when no update waits at the start of the iteration, all that is told is true of what was returned."
  },
  {
   "property": "C93",
   "status": "partial",
   "theorems": [
    "C93_same_outcomes",
    "C93_viewers",
    "C93_operators",
    "C93_broadcasting",
    "C93_refuted",
    "C93_partial",
    "C93_broadcasting_texts_differ"
   ],
   "note": "The full property is false of the code in one text: a non-empty container in the source over None or an empty container in the target is reported as standing over a tensor (C93_refuted). Everything else is proved exactly; C93_partial: without empty containers it is a tensor."
  },
  {
   "property": "C94",
   "status": "proved",
   "theorems": [
    "C94_values_are_unchanged",
    "C94_execute_act",
    "C94_documented_layers",
    "C94_constants",
    "C94_edits",
    "C94_comparisons"
   ],
   "note": ""
  },
  {
   "property": "C95",
   "status": "proved",
   "theorems": [
    "C95_tangents_are_derivatives",
    "C95_along_curves",
    "C95_execute_act",
    "C95_corners_are_needed"
   ],
   "note": ""
  },
  {
   "property": "C96",
   "status": "proved",
   "theorems": [
    "C96_tangents",
    "C96_scaling",
    "C96_superposition"
   ],
   "note": ""
  },
  {
   "property": "C97",
   "status": "proved",
   "theorems": [
    "C97_bounds",
    "C97_steady",
    "C97_number_of_steps",
    "C97_depression_lengthens",
    "C97_execute_act",
    "C97_execute_act_steady"
   ],
   "note": ""
  },
  {
   "property": "C98",
   "status": "partial",
   "theorems": [
    "C98_refuted",
    "C98_running",
    "C98_execute_act",
    "C98_partial"
   ],
   "note": "The full property is false of the code: a NaN halting probability makes a halted element run again for good, later iterations add to its result, reset_batches does not help (C98_refuted), and execute_act makes all max_iterations iterations (C98_execute_act, C98_execute_case: a layer that diverges after the element has finished). C98_partial: everything else is ignored, including NaN and infinite updates, infinite halting values and NaN for other elements. C98_running: NaN for a running element makes its results NaN."
  },
  {
   "property": "C99",
   "status": "partial",
   "theorems": [
    "C99_exact",
    "C99_refuted",
    "C99_partial"
   ],
   "note": "Proved over the rationals (C99_exact). False in IEEE-754 arithmetic for updates that are infinite or NaN: the entry becomes NaN although its weight is zero (C99_refuted). C99_partial: finite updates leave everything as it was, up to the sign of zeros."
  },
  {
   "property": "C100",
   "status": "proved",
   "theorems": [
    "C100_any_order",
    "C100_definitions_are_independent",
    "C100_last_definition_wins",
    "C100_same_behaviour",
    "C100_same_execution"
   ],
   "note": ""
  },
  {
   "property": "C101",
   "status": "proved",
   "theorems": [
    "C101_only_the_calls_since_the_reset",
    "C101_one_input_after_another",
    "C101_float_only_the_calls_since_the_reset",
    "C101_float_one_input_after_another"
   ],
   "note": ""
  },
  {
   "property": "C102",
   "status": "proved",
   "theorems": [
    "C102_results_are_stable",
    "C102_running_results_are_stable",
    "C102_the_jump_is_epsilon"
   ],
   "note": ""
  },
  {
   "property": "C103",
   "status": "proved",
   "theorems": [
    "C103_larger_probabilities_cost_no_more",
    "C103_float"
   ],
   "note": ""
  },
  {
   "property": "C104",
   "status": "partial",
   "theorems": [
    "C104_warns_partial",
    "C104_warnings_as_errors",
    "C104_silent_programs_are_not_affected",
    "C104_refuted"
   ],
   "note": "The full property is false of the code both ways (C104_refuted): define_accumulator_directly overwrites silently, and define_accumulator_by_shape warns before it checks its arguments. C104_warns_partial: exactly when the warning is shown, over all histories. C104_warnings_as_errors, C104_silent_programs_are_not_affected: Python's warning filter set to error."
  },
  {
   "property": "C105",
   "status": "partial",
   "theorems": [
    "C105_partial",
    "C105_with_x64",
    "C105_no_float64",
    "C105_refuted"
   ],
   "note": "False in JAX's default mode (C105_refuted): float64 requests give float32 arrays. C105_partial: dtypes in both modes, over all sequences of definitions and histories. C105_with_x64: with 64-bit types everything requested is honoured. C105_no_float64: without them no array the library makes is float64."
  },
  {
   "property": "C106",
   "status": "partial",
   "theorems": [
    "C106_results_not_assigned_are_lost",
    "C106_refuted",
    "C106_partial"
   ],
   "note": "False of the documentation (C106_refuted, C106_results_not_assigned_are_lost): builders are immutable and the example drops what the definitions return. C106_partial: with the results assigned it works. The error mode that the pinned new_builder does not pass (C22) is supplied."
  },
  {
   "property": "C107",
   "status": "partial",
   "theorems": [
    "C107_refuted",
    "C107_setting_it_back_is_no_repair",
    "C107_partial",
    "C107_exactly_when",
    "C107_float_refuted"
   ],
   "note": "The full property is false of the code (C107_refuted): raising epsilon halts running elements without giving out the rest of their weights, and after one more iteration setting epsilon back does not repair it (C107_setting_it_back_is_no_repair). C107_partial: lowering epsilon keeps the rule for the new epsilon, after any calls with resets. C107_exactly_when: for any new epsilon the rule survives if and only if no running element is above the new threshold. C107_float_refuted: the violation in every IEEE-754 format. The others in exact arithmetic; editor with the error mode 'standard'."
  }
 ]
}