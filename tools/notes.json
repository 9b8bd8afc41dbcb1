{
 "C14": "The full property is false of the code: C14_refuted shows that iterate_act fails with an error whenever a floating dtype is wider or incomparable with the accumulator's. C14_partial proves success for the documented combinations.",
 "C16": "The full property is false of the code: C16_refuted shows that reset_batches raises AttributeError on every idle batched controller with a non-leaf accumulator. C16_partial characterises exactly when it succeeds.",
 "C19": "The full property is false of the code: a negative depression constant is accepted; the first iteration then makes probabilities negative (C19_refuted) and a halted element can become un-halted (C19_refuted_unhalts). C19_partial proves the invariant for every non-negative constant.",
 "C22": "The full property is false of the code: new_builder never returns (C22_refuted), because the error_mode field is not passed. C22_partial proves the documented result with the field supplied.",
 "C31": "The full property is false of the code: transform computes the viewed updates from the defaults, not from the pending updates (C31_refuted). C31_partial proves every other field exact.",
 "C48": "The full property is false of the code: a None node and a leaf compare equal (C48_refuted). C48_partial proves exactness on trees without None, C48_equivalence that it is an equivalence.",
 "C49": "The full property is false of the code: structure is ignored (C49_refuted) and shapes only need to broadcast (C49_refuted_shapes). C49_partial characterises the result by leaves.",
 "C34": "The full property is false of the code: every tensor accumulator or default can be replaced by None, and a None accumulator by a tensor of any shape (C34_refuted). C34_partial proves acceptance exactly for like trees on operands without misplaced None.",
 "C36": "The full property is false of the code: with an unknown name every non-None value raises KeyError instead of the checkify error (C36_refuted). C36_partial proves the property for known names and operands without misplaced None.",
 "C39": "The full property is false of the code: a string error_mode is a pytree leaf, so such a controller cannot be a jit operand or loop carry (C39_refuted, C39_execute_act_refused). C39_partial: all leaves are numeric exactly when error_mode is None.",
 "C56": "The full property is false of the code: the validators raise NameError, replace(depression_constant/error_mode) raises AttributeError and validate_residuals checks nothing, for every operand (C56_refuted). There is no part that holds.",
 "C58": "The full property is false of the code: set_epsilon accepts 0, after which no element halts in any history (C58_refuted); in IEEE arithmetic the same holds for every epsilon up to lost_epsilon (C58_float_refuted). C58_partial proves halting for 0 < epsilon <= 1 in exact arithmetic; C21_partial covers IEEE arithmetic above lost_epsilon.",
 "C53": "The full property is false of the code: the wrapper inspects the incoming controller, so it accepts any returned controller (C53_refuted). C53_partial: inside execute_act a first iteration that leaves an update pending is still stopped by the loop carry check.",
 "C21": "The full property is false of the code: an epsilon of at most lost_epsilon (2^-(prec+1) + 2^-54, or 2^-54 for 53 bits) passes the check of new_builder and no element ever halts (C21_refuted; not stated for the hypothetical format of 52 bits), the same for NaN (C21_refuted_nan). C21_partial: every epsilon above that bound lets a full strength iteration halt, so the bound is exact.",
 "C29": "The full property is false of the code: a hidden NaN or infinite entry is shown as NaN (C29_refuted). C29_partial: hidden finite entries are zero, kept entries unchanged.",
 "C33": "Proved for every arithmetic in terms of its comparisons and for exact arithmetic. In IEEE arithmetic the property is false: NaN probabilities are accepted and then nothing halts (C33_refuted_nan).",
 "C60": "The full property is false of the code in floating point: probabilities of at most 2^-(prec+1) are lost (C60_refuted). C60_partial_sharp: all effective probabilities above that bound halt the element within 2^(prec+2) iterations, so the bound is exact; C60_partial: within 2^(prec+1) for probabilities of at least 2^-prec.",
 "C61": "The full property is false of the code in floating point: the count stops at 2^prec (C61_refuted). C61_partial: it is exact up to 2^prec.",
 "C42": "The full property is false of the code: assigning _is_immutable succeeds and then any attribute can be assigned (C42_refuted); del succeeds as well (C42_refuted_delete). C42_partial: every other assignment raises and changes nothing, at any point of any history.",
 "C62": "The full property is false of the code: the successor of cache_update shares the accumulators dictionary with the older controller (C62_refuted), and save() returns the mutable internal state (C62_refuted_save). C62_partial names the dictionaries that are never shared.",
 "C77": "The full property is false of the code: whatever the user makes of a container after passing it to define or cache_update, or after getting it from controller[name], is what the controller then contains (C77_refuted, C77_refuted_cached, C77_refuted_handed_out). C77_partial: programs that write only to containers of their own behave as if pytrees were values; C77_partial_careful with the weakest such discipline; C77_partial_iterate, C77_partial_reset and C77_partial_transform name what is never shared.",
 "C78": "The full property is false of the code in JAX's default 32 bit mode: for every epsilon that does not survive, one iteration makes every element halt in one world and none in the other (C78_refuted; 0.09 with float32 in C78_refuted_case). C78_partial and C78_partial_execute_act: with settings that survive both worlds agree bit for bit; C78_partial_survivors says which do; C78_partial_other_epsilon: always the behaviour of an epsilon at most 2^-24 + 2^-(prec+1) away.",
 "C84": "The full property is false of the code: every accumulator with a dataclass instance in it has another structure after a boundary (C84_refuted), and the instance handed to the next cache_update is added in declaration order to fields in alphabetical order (C84_refuted_wrong_field, C84_case_boundary). C84_partial_exactly_without_dataclasses: the controller is preserved iff it holds no instance; C84_partial_eager: without a boundary, instances are added field by field and stay instances.",
 "C92": "The full property is false of the code: whether updates were committed is looked up in the controller that run_iteration was given, not in the one it returned, so a layer that commits everything is told it never committed, and one that leaves updates waiting is told nothing (C92_refuted). C92_make_controller and C92_run_iteration say exactly what is told and when; C92_partial: when no update waits at the start of the iteration, all that is told is true of what was returned.",
 "C93": "The full property is false of the code in one text: a non-empty container in the source over None or an empty container in the target is reported as standing over a tensor (C93_refuted). Everything else is proved exactly; C93_partial: without empty containers it is a tensor.",
 "C98": "The full property is false of the code: a NaN halting probability makes a halted element run again for good, later iterations add to its result, reset_batches does not help (C98_refuted), and execute_act makes all max_iterations iterations (C98_execute_act, C98_execute_case: a layer that diverges after the element has finished). C98_partial: everything else is ignored, including NaN and infinite updates, infinite halting values and NaN for other elements. C98_running: NaN for a running element makes its results NaN.",
 "C99": "Proved over the rationals (C99_exact). False in IEEE-754 arithmetic for updates that are infinite or NaN: the entry becomes NaN although its weight is zero (C99_refuted). C99_partial: finite updates leave everything as it was, up to the sign of zeros.",
 "C104": "The full property is false of the code both ways (C104_refuted): define_accumulator_directly overwrites silently, and define_accumulator_by_shape warns before it checks its arguments. C104_warns_partial: exactly when the warning is shown, over all histories. C104_warnings_as_errors, C104_silent_programs_are_not_affected: Python's warning filter set to error.",
 "C105": "False in JAX's default mode (C105_refuted): float64 requests give float32 arrays. C105_partial: dtypes in both modes, over all sequences of definitions and histories. C105_with_x64: with 64-bit types everything requested is honoured. C105_no_float64: without them no array the library makes is float64.",
 "C106": "False of the documentation (C106_refuted, C106_results_not_assigned_are_lost): builders are immutable and the example drops what the definitions return. C106_partial: with the results assigned it works. The error mode that the pinned new_builder does not pass (C22) is supplied.",
 "C107": "The full property is false of the code (C107_refuted): raising epsilon halts running elements without giving out the rest of their weights, and after one more iteration setting epsilon back does not repair it (C107_setting_it_back_is_no_repair). C107_partial: lowering epsilon keeps the rule for the new epsilon, after any calls with resets. C107_exactly_when: for any new epsilon the rule survives if and only if no running element is above the new threshold. C107_float_refuted: the violation in every IEEE-754 format. The others in exact arithmetic; editor with the error mode 'standard'."
}