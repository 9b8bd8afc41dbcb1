#!/usr/bin/env python3
"""Writes properties.jsonl (kept as a script so that the list stays easy to edit)."""
import json, os
P = []
def p(id, title, statement, quantifier, why, anchors):
    P.append(dict(id=id, title=title, statement=statement, quantifier=quantifier,
                  why_tests_cant=why, anchors=anchors))
C = "src/jax_act/core/controller.py:"
B = "src/jax_act/core/builder.py:"
V = "src/jax_act/core/viewer.py:"
E = "src/jax_act/core/tensoreditor.py:"
U = "src/jax_act/core/utils.py:"
S = "src/jax_act/core/states.py:"
L = "src/jax_act/layers/core.py:"
A = "src/jax_act/layers/act.py:"

# ---------------------------------------------------------------- controller
p("C01", "Cumulative probability stays a probability",
  "Starting from a controller whose cumulative probabilities lie in [0,1], whose epsilon lies in [0,1] and whose depression constant is >= 0, after any sequence of cache_update / iterate_act / reset_batches calls (calls that raise change nothing) every entry of controller.probabilities lies in [0,1] and never decreases except by a reset to exactly 0.",
  "all controllers, all batch shapes, all finite call sequences, all halting tensors (also outside [0,1])",
  "An invariant over unbounded call histories and all tensor contents.",
  [C+"ACT_Controller._process_probabilities", C+"ACT_Controller.iterate_act", C+"ACT_Controller.reset_batches"])
p("C02", "No rounding overshoot: halting lands exactly on 1.0 in IEEE arithmetic",
  "In IEEE-754 binary arithmetic (float16, bfloat16, float32, float64; round to nearest even) the cumulative probability of a batch element stays a finite number in [0,1] through any sequence of calls with non-NaN halting probabilities and a depression constant >= 0 that is finite in the format of the arrays, and it becomes exactly 1.0 in the step in which the element halts.",
  "all IEEE formats of precision >= 2, all finite inputs, all histories",
  "2^32 probabilities times 2^32 halting values times histories; rounding corner cases are not sampled by tests with allclose.",
  [C+"ACT_Controller._process_probabilities"])
p("C03", "A halted batch element is frozen by iterate_act",
  "If a batch element is halted when iterate_act is called and the call returns, then every element of every accumulator leaf belonging to it, its residual and its iteration count are bit-for-bit unchanged, whatever the update contains (also NaN and infinity).",
  "all controllers, updates, halting tensors, arithmetics (exact and IEEE, NaN included)",
  "Quantifies over every tensor content including non-finite values.",
  [C+"ACT_Controller._update_accumulator", C+"ACT_Controller.iterate_act"])
p("C04", "Halting is permanent until reset",
  "With epsilon > 0 and a depression constant >= 0 (in IEEE arithmetic: epsilon in [0,1], probabilities in [0,1], no NaN halting values), an element that is halted stays halted through any sequence of cache_update and iterate_act calls; only reset_batches un-halts it.",
  "all call sequences without reset", "Unbounded histories.",
  [C+"ACT_Controller._process_probabilities", C+"ACT_Controller.halted_batches"])
p("C05", "The controller computes Graves' adaptive computation time",
  "Take a newly built controller with 0 < epsilon <= 1 and a depression constant >= 0. For each batch element, let h_1..h_n be the effective halting probabilities (depression constant times the clamped input) committed since the element was last (re)started, and u_1..u_n the updates. Let N be the first index whose cumulative sum exceeds 1-epsilon. The controller then reports: weights w_k = h_k for k<N, w_N = 1 - sum_{k<N} h_k, w_k = 0 for k>N; accumulator = default + sum w_k u_k; probability = sum w_k; residual = w_N (0 if not halted); iterations = min(n,N). This holds after any interleaving of cache_update, iterate_act and reset_batches calls, where a call that raises changes nothing.",
  "all batch shapes, accumulators (any number, any pytree), update trees, halting tensors and call histories",
  "A refinement to an independent specification over unbounded histories and sizes.",
  [C+"ACT_Controller.iterate_act", C+"ACT_Controller.reset_batches", C+"ACT_Controller.cache_update"])
p("C06", "Halted outputs are convex combinations",
  "In a controller built with 0 < epsilon <= 1 and a depression constant >= 0, once a batch element has halted, the weights applied to its updates are non-negative and sum to exactly one, so the accumulated value minus the default lies between the smallest and the largest update it was given.",
  "all histories", "Needs the sum over an unbounded history.",
  [C+"ACT_Controller._process_probabilities", C+"ACT_Controller._update_accumulator"])
p("C07", "Residual and iteration statistics",
  "In a controller built with 0 < epsilon <= 1 and a depression constant >= 0, the residual of an element is 0 until it halts; in the halting step it becomes 1 minus the cumulative probability before that step (the weight given to the last update) and lies in [0,1]. The iteration count equals the number of committed iterations in which the element was not yet halted.",
  "all histories", "Relates a stored statistic with the whole history.",
  [C+"ACT_Controller._process_probabilities", C+"ACT_Controller.iterations"])
p("C08", "Batch elements do not influence each other",
  "Two controllers with the same structure, shapes and dtypes that agree on the data of batch element b, given updates and halting tensors that agree on element b, either both raise the same error or both succeed in iterate_act with results that agree on element b. The contents (also NaN) of other batch elements are irrelevant.",
  "all pairs of controllers, all b", "A relational (2-safety) property over all tensor contents.",
  [C+"ACT_Controller.iterate_act", U+"setup_left_broadcast"])
p("C09", "iterate_act commits every accumulator exactly once",
  "iterate_act raises unless every accumulator has a pending update; when it succeeds every accumulator's pending slot is empty, so a second iterate_act without new cache_update calls raises.",
  "all controllers with at least one accumulator", "Ranges over all sets of accumulators and pending slots.",
  [C+"ACT_Controller.iterate_act"])
p("C10", "cache_update is precise",
  "cache_update(name, item) raises ValueError for an unknown accumulator, RuntimeError if the slot is pending, and otherwise returns a controller that differs only in that one slot; updates for distinct accumulators may be cached in any order with the same result. updates_ready_to_commit is true iff every accumulator has a pending update, has_cached_updates iff some accumulator has one.",
  "all controllers, names, items", "All names and states; commutation is relational.",
  [C+"ACT_Controller.cache_update", C+"ACT_Controller.updates_ready_to_commit", C+"ACT_Controller.has_cached_updates"])
p("C11", "Structure, shapes and dtypes are stable",
  "No sequence of cache_update / iterate_act / reset_batches changes the set of accumulators, the tree structure, leaf shapes or leaf dtypes of any accumulator, the defaults, the batch shape, epsilon or the depression constant.",
  "all call histories", "Invariant over unbounded histories and arbitrary pytrees.",
  [C+"ACT_Controller.iterate_act", C+"ACT_Controller.reset_batches", U+"merge_pytrees"])
p("C12", "Out of range halting probabilities are clamped",
  "iterate_act(h) returns exactly what iterate_act(clip(h,0,1)) returns: values above one act like one and values below zero act like zero. The same holds bit for bit in IEEE arithmetic, infinities, NaN and negative zero included.",
  "all controllers and halting tensors", "All tensor contents.",
  [C+"ACT_Controller.iterate_act"])
p("C13", "iterate_act succeeds on well-formed input",
  "For a well-formed controller with floating accumulators of the core dtype and matching pending updates, iterate_act of a halting tensor with the batch shape and core dtype never raises; with another shape it raises ValueError.",
  "all well-formed controllers", "Totality over all shapes and pytrees.",
  [C+"ACT_Controller.iterate_act", C+"ACT_Controller._update_accumulator"])
p("C14", "Accumulators may have any floating dtype",
  "Any accumulator the builder accepts can be iterated with updates of its own dtype. (Violated: an accumulator of lower precision than the probabilities is accepted by the builder, but iterate_act always raises.)",
  "all dtypes the builder accepts", "All dtype combinations and states.",
  [B+"ControllerBuilder._validate_definition_pytree", C+"ACT_Controller._update_accumulator"])
p("C15", "reset_batches resets exactly the halted elements",
  "If reset_batches returns, then for halted elements the accumulators equal the defaults and probability, residual and iterations are 0, and everything belonging to elements that are not halted, as well as defaults and pending slots, is unchanged. In IEEE arithmetic everything of a running element and every accumulator is preserved or restored bit for bit, and a statistic of a halted element becomes a zero of its own sign (NaN if it was not finite).",
  "all well-formed controllers", "All tensor contents and shapes.",
  [C+"ACT_Controller.reset_batches"])
p("C16", "reset_batches supports every accumulator the controller supports",
  "reset_batches works for accumulators that are pytrees, as iterate_act does. (Violated: with batch dimensions, any accumulator that is a dict, list or tuple with a leaf makes reset_batches raise AttributeError, because the tree instead of the leaf is passed to the broadcast helper.)",
  "all pytree accumulators", "All pytree structures.",
  [C+"ACT_Controller.reset_batches"])
p("C17", "reset_batches is guarded and idempotent",
  "reset_batches raises RuntimeError exactly when an update is pending (for tensor accumulators), and resetting twice gives the same controller as resetting once when the threshold is >= 0 (bit for bit in IEEE arithmetic, there also for a NaN epsilon).",
  "all controllers", "All states.",
  [C+"ACT_Controller.reset_batches"])
p("C18", "The depression constant scales halting",
  "Running with depression constant d on halting probabilities h equals running with constant 1 on d*h whenever d is in [0,1]; d = 0 never advances or halts an element that is not halted. In IEEE arithmetic d = 0 leaves probability, residual, halting and every accumulator entry with a finite update as they were (zeros may change sign), for every halting value that is not NaN.",
  "all d, all controllers", "All real scalings.",
  [C+"ACT_Controller._process_probabilities", B+"ControllerBuilder.new_builder"])
p("C19", "Depression constants are sane",
  "No accepted depression constant can break the probability invariants. (Violated: the constant is not validated; a negative constant makes cumulative probabilities negative and un-halts halted elements.)",
  "all depression constants", "All values.",
  [B+"ControllerBuilder.new_builder", C+"ACT_Controller._process_probabilities"])
p("C20", "Enough halting mass always halts",
  "Under exact arithmetic, in a controller built with 0 < epsilon <= 1 and a depression constant >= 0, an element is halted exactly when its committed effective halting probabilities since its last restart sum to more than 1-epsilon; is_completely_halted / is_any_halted are true iff all / some elements are halted.",
  "all histories", "Unbounded histories.",
  [C+"ACT_Controller.halted_batches", C+"ACT_Controller.is_completely_halted"])
p("C21", "Every accepted epsilon allows halting",
  "For every epsilon new_builder accepts a controller can halt. (Violated in floating point: for float32 and epsilon below 2^-25 the threshold rounds to 1.0 and no element can ever halt; a NaN epsilon is accepted and never halts.)",
  "all epsilons, all IEEE inputs", "Rounding corner cases.",
  [B+"ControllerBuilder.new_builder", C+"ACT_Controller.halt_threshold"])
# ---------------------------------------------------------------- builder
p("C22", "new_builder returns a usable builder",
  "new_builder with 0 < epsilon < 1 and a floating dtype returns a builder with zero probabilities, residuals and iterations of the batch shape and no accumulators. (Violated: ACTStates requires error_mode, which new_builder does not pass, so every call with valid arguments raises TypeError.)",
  "all arguments", "All arguments.",
  [B+"ControllerBuilder.new_builder", S+"ACTStates"])
p("C23", "new_builder rejects insane arguments",
  "new_builder raises ValueError exactly when the dtype is not floating or epsilon is outside (0,1).",
  "all arguments", "All arguments.",
  [B+"ControllerBuilder.new_builder"])
p("C24", "Accumulator definitions are checked",
  "define_accumulator_directly accepts a pytree iff every leaf is floating and has the batch shape as shape prefix; TypeError / ValueError otherwise.",
  "all pytrees and batch shapes", "All pytrees.",
  [B+"ControllerBuilder._validate_definition_pytree", B+"ControllerBuilder.define_accumulator_directly"])
p("C25", "Definitions only touch the named accumulator",
  "An accepted definition sets default and accumulator of that name to the definition and its pending slot to empty, and leaves all other accumulators, probabilities, residuals, iterations, epsilon alone.",
  "all builders, names", "All names and states.",
  [B+"ControllerBuilder._define"])
p("C26", "define_accumulator_by_shape builds what the shape tree says",
  "If every leaf position of the shapes pytree is a list of ints the result has the same structure with a tensor of that shape, the requested dtype and the fill value at each position; otherwise ValueError.",
  "all shape pytrees", "All pytrees.",
  [B+"ControllerBuilder.define_accumulator_by_shape"])
p("C27", "Builders only produce well-formed controllers",
  "After any sequence of define / delete calls (calls that raise change nothing) from a fresh builder, build() returns a controller whose three tables have the same names and whose every accumulator satisfies the batch-shape contract, so that iterate_act and reset_batches meet their preconditions.",
  "all call sequences", "Invariant over unbounded histories.",
  [B+"ControllerBuilder"])
# ---------------------------------------------------------------- viewer
p("C28", "Masking keeps or zeroes",
  "mask_data(mask) leaves entries of batch elements with mask True unchanged and makes all others zero in probabilities, residuals, iterations, accumulators and defaults (exact arithmetic), and preserves structure and shapes; wrong dtype or shape raises ValueError.",
  "all well-formed viewers and masks", "All tensors and pytrees.",
  [V+"ACTViewer.mask_data", V+"ACTViewer.transform"])
p("C29", "Masking hides non-finite values",
  "Masked-away entries are zero whatever they contained. (Violated in IEEE arithmetic: the mask multiplies, so NaN and infinity become NaN.)",
  "all IEEE contents", "Non-finite contents.",
  [V+"ACTViewer.mask_data"])
p("C30", "halted_only and unhalted_only partition the data",
  "For every entry, halted_only plus unhalted_only gives back the original entry, and one of the two is zero. In IEEE arithmetic one of the two views shows the entry bit for bit and the other a zero of its sign (NaN for an entry that is not finite).",
  "all well-formed viewers", "All tensors.",
  [V+"ACTViewer.halted_only", V+"ACTViewer.unhalted_only"])
p("C31", "Viewing transforms show the pending updates",
  "After transform(f), viewer.updates holds f of the pending updates (None where nothing is pending). (Violated: transform rebuilds the updates from the defaults, so pending updates are lost and every slot looks pending.)",
  "all viewers", "All states.",
  [V+"ACTViewer.transform"])
p("C32", "Masks compose",
  "mask_data(m1) followed by mask_data(m2) equals mask_data(m1 & m2); in particular masking is idempotent. Both hold bit for bit in IEEE arithmetic.",
  "all viewers and mask pairs", "All masks and tensors.",
  [V+"ACTViewer.mask_data"])
# ---------------------------------------------------------------- editor
p("C33", "Editor setters validate exactly what they promise",
  "In standard mode set_probabilities, set_residuals, set_iterations and set_epsilon succeed iff shape and dtype match and the contents are in range ([0,1] / >= 0), and then change exactly that one field.",
  "all editors and values", "All tensors.",
  [E+"TensorEditor.set_probabilities", E+"TensorEditor.set_residuals", E+"TensorEditor.set_iterations", E+"TensorEditor.set_epsilon"])
p("C34", "set_accumulator / set_defaults only accept like for like",
  "In standard mode set_accumulator succeeds only with a pytree of the same structure, shapes and dtypes. (Violated: None subtrees and leaves are conflated, so a tensor accumulator may be replaced by None.)",
  "all editors, names, pytrees", "All pytrees.",
  [E+"TensorEditor.set_accumulator", E+"TensorEditor.set_defaults", U+"are_pytree_structure_equal"])
p("C35", "Silenced editors never raise",
  "In silence mode no setter raises and the given value is stored verbatim; an error mode other than standard / silence is rejected with ValueError when the editor is opened.",
  "all editors and values", "All inputs.",
  [E+"TensorEditor._execute_validation", E+"TensorEditor.edit_controller"])
p("C36", "set_updates edits one slot",
  "set_updates with None clears the slot and with a tree like the default sets it; an unknown name raises a checkify error. (Violated: for a non-None value an unknown name raises KeyError.)",
  "all editors", "All names and pytrees.",
  [E+"TensorEditor.set_updates"])
p("C37", "Edited controllers remain well-formed",
  "A controller built after any sequence of successful standard-mode edits with trees that contain no None nodes still satisfies the well-formedness invariant used by iterate_act.",
  "all edit sequences", "Unbounded histories.",
  [E+"TensorEditor"])
# ---------------------------------------------------------------- persistence / jit
p("C38", "Pytree round trip",
  "Flattening a controller, builder, viewer or editor to leaves and rebuilding it gives back an equal object (dictionary order aside), for every structure of accumulators, pending or empty slots.",
  "all objects", "All pytrees.",
  [S+"state_flatten", S+"state_unflatten", C+"flatten_controller", C+"unflatten_controller", E+"flatten_editor"])
p("C39", "Controllers can cross a jit boundary",
  "All leaves of a controller are numeric so that it can be an argument or result of jit / while_loop. (Violated: error_mode is a string leaf; execute_act refuses such a controller with TypeError before the first iteration.)",
  "all states", "All states.",
  [S+"ACTStates", S+"state_flatten", A+"AbstractACTTemplate.execute_act"])
p("C40", "save / load round trip and shared state",
  "load(save(c)) behaves exactly like c; make_viewer shows exactly the controller's tensors. controller[name] is the accumulator of that name, a KeyError for any other name.",
  "all controllers", "All states.",
  [C+"ACT_Controller.save", C+"ACT_Controller.load", C+"ACT_Controller.make_viewer", C+"ACT_Controller.__getitem__"])
p("C41", "Methods never modify their receiver",
  "cache_update, iterate_act, reset_batches, define_*, set_*, transform and mask_data allocate new objects: no dictionary or state object that existed before the call is modified, even if the call raises, so older controllers keep their observable contents through any later history.",
  "all heaps, all histories", "Aliasing over unbounded histories.",
  [C+"ACT_Controller.cache_update", C+"ACT_Controller.iterate_act", S+"ACTStates.replace", "src/jax_act/core/immutable.py:Immutable"])
p("C42", "Immutable objects reject assignment",
  "After construction every attribute assignment raises AttributeError and changes nothing. (Violated for the attribute _is_immutable itself, which can be set to False and re-enables mutation; deletion of attributes is not guarded at all.)",
  "all attribute names and assignment sequences", "All sequences of assignments.",
  ["src/jax_act/core/immutable.py:Immutable"])
# ---------------------------------------------------------------- utils
p("C43", "can_right_broadcast decides numpy compatibility",
  "can_right_broadcast(a,b) is True iff the shapes are compatible under the numpy broadcasting rule.",
  "all pairs of shapes", "All shapes.", [U+"can_right_broadcast"])
p("C44", "setup_left_broadcast aligns on the left",
  "For a non-scalar tensor whose rank is at most the target's, the result has the target's rank, the tensor's dims first and ones after, and the same data; a higher rank raises AssertionError; a scalar is returned unchanged. If the tensor's shape is a prefix of the target's, broadcasting repeats each element over the trailing dims.",
  "all tensors", "All shapes.", [U+"setup_left_broadcast"])
p("C45", "broadcast_pytree_shape replicates source leaves over target branches",
  "broadcast_pytree_shape(source, target) succeeds iff source is a tree prefix of target (a leaf of source may face any branch, an empty container of source may face any branch without leaves); the result has exactly the structure of target and at each target leaf the source leaf found on the path to it. Otherwise it raises RuntimeError when the two trees clash at some node, and AssertionError when only an empty source container faces leaves.",
  "all pairs of pytrees", "All pytrees.", [U+"broadcast_pytree_shape", U+"_replicate_leaves", U+"_count_linked_leaves"])
p("C46", "execute_binary_operator applies operators leafwise in order",
  "The result has the structure of the larger operand and at every leaf operator(left operand leaf, right operand leaf) - never swapped - with ranks aligned on the left; RuntimeError is the only error.",
  "all pytrees and operators", "All pytrees, operators.", [U+"execute_binary_operator"])
p("C47", "merge_pytrees pairs leaves",
  "merge_pytrees(f,p,a) succeeds iff leaf counts agree and f succeeds on all pairs; the result has the structure of p and leaf i is f(p_i,a_i).",
  "all pytrees and functions", "All pytrees.", [U+"merge_pytrees"])
p("C48", "Structure comparison is exact",
  "are_pytree_structure_equal(a,b) is True iff a and b have the same structure. (Violated: a None node equals a leaf.) It is an equivalence relation and exact on trees without None.",
  "all pairs of pytrees", "All pytrees.", [U+"are_pytree_structure_equal"])
p("C49", "Pytree equality",
  "are_pytrees_equal(a,b) returns True only for trees of equal structure and False for others. (Violated: structure is ignored and a differing leaf count raises AssertionError.)",
  "all pairs of pytrees", "All pytrees.", [U+"are_pytrees_equal"])
# ---------------------------------------------------------------- layers
p("C50", "execute_act terminates within max_iterations",
  "execute_act runs run_iteration at most max_iterations times, for every layer, and returns a controller that is completely halted or has been iterated exactly max_iterations times.",
  "all layers (arbitrary user functions), all bounds", "Termination for arbitrary user code.",
  [A+"AbstractACTTemplate.execute_act", A+"AbstractACTTemplate._is_act_not_complete"])
p("C51", "execute_act equals the documented Python loop",
  "When nothing raises and the loop halts within max_iterations, execute_act returns what the documented loop 'while not halted: controller, state = run_iteration(controller, state)' returns.",
  "all layers", "All user functions, unbounded iterations.",
  [A+"AbstractACTTemplate.execute_act"])
p("C52", "The contract checks catch violations of run_iteration",
  "With checks enabled, a run_iteration that does not return a pair, returns a non-controller, or returns the same controller object is rejected with TypeError / RuntimeError; with checks disabled the return value is passed through to the loop, and execute_act raises ValueError for anything that does not unpack into two items and TypeError for a pair that is not a controller and a state; a make_controller that does not return a controller is then an AttributeError.",
  "all return values", "All return values.",
  [L+"ContractValidationWrapper.run_iteration"])
p("C53", "Uncommitted updates are detected",
  "With checks enabled a run_iteration whose returned controller still has pending updates is rejected. (Violated: the wrapper inspects the incoming controller instead of the returned one.)",
  "all return values", "All return values.",
  [L+"ContractValidationWrapper.run_iteration", L+"ContractValidationWrapper._validate_all_act_updates_committed"])
p("C54", "make_controller is checked",
  "With checks enabled make_controller raises TypeError for a non-controller and RuntimeError for a controller without accumulators, and otherwise returns the user's controller.",
  "all return values", "All return values.",
  [L+"ContractValidationWrapper.make_controller"])
p("C55", "ACT layers reach halting under a positive probability floor",
  "If every iteration commits effective halting probability at least q > 0 for each element, then after any number n of iterations with n*q > 1-epsilon the controller is completely halted, so execute_act with max_iterations >= n returns a completely halted controller.",
  "all q, epsilon, batch shapes", "Unbounded iterations (liveness).",
  [A+"AbstractACTTemplate.execute_act", C+"ACT_Controller.iterate_act"])
p("C56", "State validators validate",
  "ACTStates.validate_epsilon/iterations/residuals and replace(depression_constant=...) / replace(error_mode=...) validate their operand and return it. (Violated: ErrorModes, validate_depression_constant and validate_error_mode do not exist, so they raise NameError / AttributeError; validate_residuals checks nothing.)",
  "all operands", "All operands.",
  [S+"ACTStates.execute_validation", S+"ACTStates.validate_epsilon", S+"ACTStates.validate_residuals", S+"ACTStates.replace"])
p("C57", "replace changes exactly the given fields",
  "state.replace(...) with any subset of the numeric fields returns a state with exactly those fields replaced and all others shared.",
  "all subsets of fields", "All subsets and values.", [S+"ACTStates.replace"])
p("C58", "set_epsilon keeps halting possible",
  "An epsilon accepted by the editor lets elements halt: a controller built from the editor halts an element whose cumulative probability is raised by enough mass. (Violated: set_epsilon accepts 0, with which no element can ever exceed the threshold; in IEEE arithmetic the same holds for every epsilon too small for the format, whatever the halting values.)",
  "all controllers, all epsilon, all later call histories", "The failure is the absence of halting over every history.",
  [E+"TensorEditor.set_epsilon", C+"ACT_Controller.halt_threshold"])

p("C59", "Lazy parameter set-up does not change results",
  "A flax layer with frozen parameters behaves like the same layer whose set-up does nothing. With mutable parameters (when setup_lazy_parameters runs one extra iteration) it returns the same, or raises the exception of that extra iteration.",
  "all layers, inputs, bounds", "Arbitrary user functions.",
  ["src/jax_act/frameworks/flax.py:FlaxACTLayer.setup_lazy_parameters", A+"AbstractACTTemplate.execute_act"])

p("C60", "Steady halting probabilities halt the element in IEEE arithmetic",
  "An element that keeps receiving a positive halting probability bounded away from zero is eventually halted. (Violated in floating point: a probability of at most half a unit in the last place, 2^-25 for float32, is rounded away once the cumulative probability has reached 1/2, so the element never halts although the probabilities add up to any amount. It holds with bound 2^(prec+2) for all effective probabilities above that limit, and with bound 2^(prec+1) for those of at least 2^-prec.)",
  "all IEEE formats, all controllers and histories", "Liveness over unbounded histories and rounding corner cases.",
  [C+"ACT_Controller._process_probabilities"])
p("C61", "The iteration count is exact in IEEE arithmetic",
  "controller.iterations of an element that is not halted equals the number of iterations committed. (Violated in floating point: the count is kept in the core dtype and stops at 2^prec: 256 for bfloat16, 2048 for float16, 16777216 for float32. It is exact up to there.)",
  "all IEEE formats, all controllers and histories", "Needs histories longer than any test.",
  [C+"ACT_Controller.iterate_act", B+"ControllerBuilder.new_builder"])
p("C62", "Data handed out is not an alias of the internals",
  "Changing a dictionary got from the properties accumulators, defaults or updates, or a field of the state returned by save(), never changes a controller that existed before. (Violated: the properties and save() return the internal objects, ACTStates is a mutable dataclass, and cache_update shares the accumulators with its receiver, so c2.accumulators[k] = v also changes c. Only freshly made dictionaries are safe: accumulators and updates after iterate_act, accumulators after reset_batches, updates after cache_update, all three after transform or a definition.)",
  "all heaps, all objects, all keys and values", "Aliasing between objects made by different calls.",
  [C+"ACT_Controller.accumulators", C+"ACT_Controller.save", C+"ACT_Controller.cache_update", C+"ACT_Controller.iterate_act", S+"ACTStates"])
p("C63", "Batching is transparent",
  "A batch element evolves as if it were alone, whatever the batch around it looks like: if element b1 of one controller and element b2 of another (of possibly different batch shapes) are in the same condition and get corresponding data in corresponding calls (cache_update, iterate_act, reset_batches), then each call returns on one exactly if it returns on the other, raises the same kind of error, and the two elements stay in the same condition. In particular running element b cut out of the batch, with batch shape (), gives what element b of the batch gets. For reset_batches this needs accumulators that are tensors, or batch shapes both or neither (), because of C16.",
  "all pairs of batch shapes, elements, controllers, call histories and arithmetics", "Quantifies over pairs of batch shapes and over histories.",
  [C+"ACT_Controller.iterate_act", C+"ACT_Controller.cache_update", C+"ACT_Controller.reset_batches", U+"setup_left_broadcast"])
p("C64", "Every batch element runs the scalar algorithm",
  "A controller is an array of independent scalar programs, in every arithmetic and bit for bit: the statistics of element i and every number of every accumulator after any history of calls are those computed by a short scalar program (iterate: add the clamped and depressed halting value, or what is missing to 1; reset: start a halted element again) from the halting values and updates that the calls which returned supplied for that element and that number. halted_batches is the halting test of the scalar program.",
  "all arithmetics, controllers, call histories with resets and raising calls, elements, accumulator entries", "Arbitrary histories, shapes and arithmetics (rounding and NaN included).",
  [C+"ACT_Controller.iterate_act", C+"ACT_Controller.cache_update", C+"ACT_Controller.reset_batches", C+"ACT_Controller.halted_batches"])
p("C65", "Larger halting probabilities never halt later",
  "If one element never receives a larger halting value than another, and its controller has neither a larger epsilon nor a larger depression constant, then at every moment its cumulative probability is not larger, its iteration count not smaller, and whenever it is halted so is the other. Holds in exact and in IEEE arithmetic, across controllers and batch shapes.",
  "all pairs of controllers, elements and reset-free call histories; all IEEE formats", "Relates two executions of arbitrary length; rounding could break monotonicity.",
  [C+"ACT_Controller._process_probabilities", C+"ACT_Controller.iterate_act"])
p("C66", "Weights add up to one under rounding",
  "The weights with which an element's updates are added are non-negative numbers whose exact sum differs from the cumulative probability by at most 2^-prec per contributing iteration; the probability is exactly 1.0 once the element is halted.",
  "all IEEE formats, controllers, reset-free call histories, elements", "Accumulated rounding errors over unbounded histories.",
  [C+"ACT_Controller._process_probabilities", C+"ACT_Controller._update_accumulators"])
p("C67", "Accumulators are accurate under rounding",
  "Every entry of every accumulator differs from its default plus the exact sum of weight times update by at most the standard error bound of n fused steps (about (n+1) 2^-prec times the total magnitude), and is finite, as long as the magnitudes cannot overflow. If no update exceeds M in absolute value, this needs only a bound in n and M.",
  "all IEEE formats, controllers, reset-free call histories, accumulators, entries", "Accumulated rounding errors over unbounded histories.",
  [C+"ACT_Controller._update_accumulators", C+"ACT_Controller.iterate_act"])
p("C68", "Rounding does not change clear halting decisions",
  "After m iterations an element is halted if the exact sum of its clamped and depressed halting values exceeds 1-epsilon by more than (m+1) 2^-prec, and is not halted if the sum stays below 1-epsilon by at least that much (depression constant at most 1, and for the first part an epsilon not lost in the format, see C21).",
  "all IEEE formats, controllers, reset-free call histories, elements", "Accumulated rounding errors over unbounded histories.",
  [C+"ACT_Controller._process_probabilities", C+"ACT_Controller.halt_threshold", C+"ACT_Controller.halted_batches"])
p("C69", "The residual of a halted element is at least epsilon",
  "After any history a halted element has probability 1 and a residual between epsilon and 1, and an element that is not halted has residual 0. In IEEE arithmetic the residual is at least epsilon - 2*2^-prec, and never below 2^-prec, so it is never rounded away.",
  "all controllers, call histories with resets, elements; all IEEE formats", "Arbitrary histories and rounding.",
  [C+"ACT_Controller._process_probabilities", C+"ACT_Controller.residuals", C+"ACT_Controller.reset_batches"])
p("C70", "Accumulators do not interfere",
  "Dropping some accumulators from a controller, and the updates for them from the calls, changes nothing about the others: for every history whose calls all return, the controller restricted to the kept accumulators is exactly the one that only ever had these accumulators. In particular probabilities, residuals and iteration counts do not depend on any update, and the accumulators may be processed one at a time.",
  "all arithmetics, controllers, sets of accumulator names, call histories", "Relates executions of arbitrary length over arbitrary sets of accumulators.",
  [C+"ACT_Controller.iterate_act", C+"ACT_Controller.cache_update", C+"ACT_Controller.reset_batches"])
p("C71", "execute_act computes adaptive computation time",
  "For a layer that does what the class docstring shows (cache an update for each accumulator, then iterate with halting probabilities, both computed from the user state), execute_act returns whenever the updates fit; it stops at the first iteration after which every element has halted, or at max_iterations; and for every element the probability, residual and iteration count are those of Graves' algorithm on the halting probabilities of these iterations, and every number of every accumulator is its default plus the weighted sum of the updates of these iterations.",
  "all docstring layers (arbitrary user state transition, update and halting functions), initial states, bounds, batch shapes", "Arbitrary user functions and numbers of iterations.",
  [A+"AbstractACTTemplate.execute_act", C+"ACT_Controller.iterate_act"])
p("C72", "Batching is transparent to execute_act",
  "An element gets the same residual, iteration count and accumulators from execute_act whatever the other elements of the batch do, and whatever the batch shape: with the same updates, halting probabilities and max_iterations the results of the element are equal, even when other elements keep the loop running for longer. Running the element alone, with batch shape (), gives the same results. Holds exactly and, without NaN halting probabilities, bit for bit in IEEE arithmetic.",
  "all pairs of docstring layers, batch shapes, elements and bounds; all IEEE formats", "Relates two executions of arbitrary, different length.",
  [A+"AbstractACTTemplate.execute_act", C+"ACT_Controller.iterate_act", C+"ACT_Controller.is_completely_halted"])
p("C73", "The course of a call does not depend on array contents",
  "Which exception a call raises, if any, and the names, structure, shapes and dtypes of its result depend only on the names, structures, shapes and dtypes involved, never on the contents of arrays, epsilon or the depression constant. So evaluation without contents (jax.eval_shape, tracing by jax.jit) foretells every history. This covers cache_update, iterate_act, reset_batches and indexing; the viewer's masks and transformations; the builder's definitions; and the setters of an editor in silent mode.",
  "all pairs of controllers, calls and histories alike in all but contents, in any two arithmetics", "Relates two executions on unrelated data; tests see single executions.",
  [C+"ACT_Controller.cache_update", C+"ACT_Controller.iterate_act", C+"ACT_Controller.reset_batches", V+"ACTViewer.transform", B+"ControllerBuilder.define_accumulator_directly", E+"TensorEditor"])
p("C74", "execute_act fails at once or never",
  "If the methods of a layer do not look at array contents, then execute_act raises before the first iteration or not at all, whatever the data, the depression constant and max_iterations; otherwise it returns a controller and a state whose structure, shapes and dtypes do not depend on the data or on the number of iterations. Layers written as in the docstring have this property if the user's functions do.",
  "all layers, initial states, bounds; any two arithmetics", "Quantifies over user code and all data.",
  [A+"AbstractACTTemplate.execute_act", A+"AbstractACTTemplate._while_loop_adapter_factory", L+"ContractValidationWrapper.run_iteration"])
p("C75", "Results are locally affine in the halting probabilities",
  "Take an element that receives halting probabilities through any history without resets, no running total of which lies exactly on the threshold 1-epsilon. Then small enough changes of its halting probabilities leave its halting and its iteration count as they are and change the rest exactly linearly: halted at step N, the residual changes by minus the sum of the changes of steps 1..N-1, every accumulator entry by the sum of change times (update of that step minus update of step N), and the halting probability of step N itself has no effect; not halted, the probability changes by the sum and each entry by the sum of change times update. (These are the gradients training relies on; exact arithmetic.) On the threshold the residual jumps.",
  "all controllers, histories without resets, elements, small changes", "Quantifies over all data and all sufficiently small changes.",
  [C+"ACT_Controller.iterate_act", C+"ACT_Controller.cache_update", C+"ACT_Controller._process_probabilities", C+"ACT_Controller._update_accumulator"])
p("C76", "Updates do not influence halting, and outputs are linear in them",
  "Two controllers with equal statistics and settings, put through the same calls except for the contents of the cached updates, have identical probabilities, residuals, iteration counts and halting flags after every history, bit for bit, also where calls raise. In exact arithmetic the accumulated change from the default is linear in the updates: mixing the updates of two histories mixes their results.",
  "all controllers, all histories, any arithmetic (linearity: exact)", "Two-run property over unbounded histories.",
  [C+"ACT_Controller.iterate_act", C+"ACT_Controller.reset_batches", C+"ACT_Controller.cache_update"])
p("C77", "Data handed in or out is not aliased",
  "What a controller or builder contains is determined by the calls made on it: changing a list or dict after passing it to define_accumulator_directly, cache_update or an editor setter, or one obtained by indexing the controller, does not change the controller. (Violated: the containers are stored and handed out as they are. It holds for programs that write only to containers the controller does not hold, and for what iterate_act, reset_batches and transform produce.)",
  "all controllers, all pytrees of any depth as linked mutable objects, all programs mixing calls with creation and modification of containers", "Sharing between objects over unbounded programs and object graphs.",
  [B+"ControllerBuilder._define", B+"ControllerBuilder._delete_definition", C+"ACT_Controller.cache_update", C+"ACT_Controller.iterate_act", C+"ACT_Controller.reset_batches", C+"ACT_Controller.__getitem__", V+"ACTViewer.transform", E+"TensorEditor.set_accumulator", E+"TensorEditor.set_defaults", E+"TensorEditor.set_updates"])
p("C78", "Compiled and eager execution agree",
  "Running the same calls on a controller inside jit or while_loop (as execute_act does) gives the same halting decisions, exceptions and arrays as running them directly. (Violated: epsilon and the depression constant are Python floats and become float32 scalars inside, so 1 - epsilon is rounded differently; with float32 arrays and epsilon 0.09 an element that receives 0.91 halts in one and not in the other. It holds for every epsilon whose threshold survives the rounding, and otherwise compiled code does what eager code does with a slightly different epsilon.)",
  "all controllers, call histories and layers, all binary floating point formats of the arrays, all epsilons in [0, 1]", "Whether rounding changes a comparison depends on the setting and on every value reached in unbounded histories.",
  [C+"ACT_Controller.halt_threshold", C+"ACT_Controller.halted_batches", C+"ACT_Controller._process_probabilities", S+"ACTStates", A+"AbstractACTTemplate.execute_act"])
p("C79", "A controller is a transparent pytree",
  "The leaves of a controller are exactly its arrays (the statistics and every array in its defaults, accumulators and updates), its two float settings and its error mode. jax.tree_map over a controller succeeds for every function and gives the controller with the same names and structures whose data are the images. jax.tree_map over two controllers combines them name by name and place by place, also if their accumulators were defined in different orders, and is a ValueError exactly if they differ in names, structures or the presence of an error mode; these are the differences that tree structures record (shapes, dtypes and values are not). Rebuilding from a wrong number of leaves is a ValueError.",
  "all controllers, all functions of leaves, pytrees of any depth", "Quantifies over all functions and all pytrees.",
  [C+"ACT_Controller", S+"ACTStates", C+"flatten_controller", C+"unflatten_controller"])
p("C80", "Accumulator names are labels",
  "Renaming the accumulators of all objects and calls with any function that keeps different names different changes nothing but the names: any program of calls on builders, controllers, viewers, editors and saves raises the same exceptions in the same places and gives the same data under the new names. (Flattening and rebuilding, which orders dictionaries by name, is left out; C38 says what it does.)",
  "all one-to-one renamings, all programs of API calls on any pool of objects, any arithmetic", "Relates two executions for every renaming and every program.",
  [C+"ACT_Controller", B+"ControllerBuilder", V+"ACTViewer", E+"TensorEditor"])
p("C81", "jit_and_checkify reports the first failed check",
  "A function wrapped by jit_and_checkify returns the function's result iff every check it reaches holds; if some check fails and the function comes to its end, the wrapper raises the message of the first failed check; and a Python exception of the function surfaces whatever the checks say. So it agrees with a direct call unless a Python exception follows a failed check. Editors in standard mode validate in the same way.",
  "all functions, all sequences of checks and outcomes", "Quantifies over all functions and all combinations of failing checks.",
  [U+"jit_and_checkify", E+"TensorEditor._execute_validation"])
p("C82", "Statistics in the core dtype, accumulators in a larger dtype",
  "When probabilities, residuals, iteration counts and halting values are of one floating point format (core_dtype) and an accumulator and its updates of a larger one, halting and all statistics are bit for bit those of a controller kept in the core format alone; accumulators of the core format are computed in it throughout; and an entry of a larger accumulator is the default plus the sum of weight times update up to the roundoff of the larger format, where the weights are the core format's, not negative, and add up to the probability up to the core format's roundoff.",
  "all pairs of IEEE-754 formats, all batch and accumulator shapes, all histories (the error bound: without resets and NaN), all settings in range",
  "Rounding errors of two formats over unbounded histories.",
  [B+"ControllerBuilder.new_builder", C+"ACT_Controller._update_accumulator", C+"ACT_Controller.iterate_act"])
p("C83", "Formatted error messages keep their text and their layout",
  "format_error_message(message, context) consists of the lines of the context moved left together as far as possible, followed by the lines of the message moved together so that their common indentation is four spaces; blank lines become empty; every other character is kept, in order. Formatting a formatted message again only moves its lines together.",
  "all texts (spaces, tabs and newlines as white space)", "Quantifies over all texts and indentations.",
  [U+"format_error_message"])
p("C84", "Dataclass pytrees survive compilation",
  "An accumulator may be any pytree, so also an instance of a registered dataclass (flax.struct or chex), and it stays one: passing a controller through jit or a loop, as execute_act does, gives the same controller, and updates that are instances are added field by field. (Violated: flattening a state uses dataclasses.asdict, which turns instances into dicts. The class is lost at the first boundary, and because the fields of a dict are ordered by name and those of an instance as declared, the updates of the next iteration are silently added to other fields unless the declaration happens to be in alphabetical order. It holds exactly for controllers without dataclass instances.)",
  "all controllers and pytrees, all classes, field names and declaration orders, any arithmetic", "Quantifies over all classes and pytrees, and the damage depends on the declaration order of the fields.",
  [S+"state_flatten", S+"state_unflatten", C+"flatten_controller", C+"unflatten_controller", C+"ACT_Controller.cache_update", C+"ACT_Controller.iterate_act"])
p("C85", "Error messages say what is wrong",
  "The text of an error states a fact about the call. A setter of an editor in the mode 'standard' raises with the first of its complaints that is true, naming the old and new shape or dtype and, for pytrees, the number of the leaf; no true complaint, no error. Defining an accumulator names the first leaf that is wrong and what it should have been. Caching and iterating name the accumulator: an iteration with halting probabilities of the right shape and dtype names the first accumulator, in the order of definition, whose update is missing or does not fit. Different setters, complaints, leaves, shapes or dtypes give different texts, and apart from the text the outcome is that of the other properties.",
  "all states, arguments, pytrees, names without newlines and any arithmetic", "Quantifies over all arguments: which of several true complaints is reported, and that no two read the same, cannot be covered by samples.",
  [E+"TensorEditor.set_probabilities", E+"TensorEditor.set_residuals", E+"TensorEditor.set_iterations", E+"TensorEditor.set_epsilon", E+"TensorEditor.set_accumulator", E+"TensorEditor.set_defaults", E+"TensorEditor.set_updates", B+"ControllerBuilder.define_accumulator_directly", B+"ControllerBuilder.define_accumulator_by_shape", B+"ControllerBuilder.new_builder", C+"ACT_Controller.cache_update", C+"ACT_Controller.iterate_act", C+"ACT_Controller.reset_batches", U+"format_error_message"])
p("C86", "execute_act in IEEE arithmetic, run by Python or compiled",
  "For a layer of the documented form, execute_act in binary floating point stops at the bound or as soon as every batch element has halted, and not sooner. Each element then has a cumulative probability in [0,1] equal to the sum of its weights up to 2^-prec per iteration, exactly 1 if it halted; a count of the iterations it ran; a residual between 0 and 1; and accumulators equal to default plus the sum of weight times update up to an explicit rounding bound. The same holds compiled, with the thresholds and depression constant that compiled code uses, which differ from the documented ones by at most 2^-24 + 2^(-prec-1). With halting values of at least 2^-prec after depression, and an epsilon that is not lost in the rounding of the thresholds (a few units of roundoff), both stop by themselves within 2^(prec+1) iterations.",
  "all binary formats of at least two bits, documented-form layers, initial states, bounds, batch shapes and accumulators", "Quantifies over all layers, iteration counts and floating-point values, in two execution modes whose thresholds differ in the last place.",
  [A+"execute_act", A+"run_layer_adapter", C+"ACT_Controller.iterate_act", C+"ACT_Controller._process_probabilities", C+"ACT_Controller._update_accumulator", C+"ACT_Controller.halted_batches"])
p("C87", "What are_pytrees_equal accepts as equal numbers",
  "For pytrees of one structure whose tensors have equal shapes place by place, are_pytrees_equal does not raise. With use_allclose it returns True exactly when in every tensor every entry x is within 10^-8 + 10^-5 |y| of its counterpart y in the second tree; without it, exactly when the entries are equal. In binary floating point NaN equals nothing, infinities only themselves, equal numbers are always accepted, and the tolerance is that of exact arithmetic up to explicit rounding errors, with both constants rounded to the format. A tree equals itself exactly when it holds no NaN. Because the tolerance is relative to the second tree, the comparison with use_allclose is not symmetric.",
  "all pytrees of equal structure and shapes, exact numbers and all binary formats of at least two bits", "Quantifies over all pytrees and all floating-point values, with subnormal, infinite and NaN entries and overflow in the intermediate results.",
  [U+"are_pytrees_equal"])
p("C88", "Threads may share objects; an interrupted call leaves no trace",
  "Threads may call any methods on shared controllers, viewers, builders, editors and saved states at the same time, without locks. However their accesses to objects interleave, and wherever a call is broken off for good (its thread killed, KeyboardInterrupt), the calls that end raise the exceptions and return the objects they would if called one after another in the order in which they end; every object a thread holds has at every moment the contents it had when it was returned; calls in progress and calls broken off have no effect that can be observed. Every call ends after finitely many accesses of its own, and never waits for another.",
  "all numbers of threads, all calls, all interleavings of accesses to dictionaries, state objects and instances, all points of interruption, all initial heaps without dangling references", "Tests run a few schedules; an access between a copy and the write to the copy, or an interruption there, is practically never hit.",
  [C+"ACT_Controller", B+"ControllerBuilder", V+"ACTViewer", E+"TensorEditor", "src/jax_act/core/immutable.py:Immutable"])
p("C89", "Executions can be stopped and continued",
  "Stopping execute_act at max_iterations loses nothing: executing again with the remaining number of iterations, from the controller and user state returned, gives the controller and user state of one execution with the full number, and raises nothing. Once all elements have halted, a larger max_iterations gives the same result. With layers in the style of the docstring an element that has halted when an execution stops has the same residual, iteration count and accumulators in every execution with a larger bound, and stays halted. This holds eagerly and compiled, in exact and in IEEE arithmetic.",
  "all layers that can be compiled (the second statement: all layers), all controllers, user states, bounds 0 <= n <= m, both settings of check_for_errors", "Tests compare a few bounds; the claim is about every split of every execution, including the additional tracing of the body and the rebuilt carry.",
  [A+"AbstractACTTemplate.execute_act", A+"ACTMetaData", L+"ContractValidationWrapper", C+"ACT_Controller.iterate_act"])
p("C90", "Everything a user can get hold of is consistent and in range",
  "Start with nothing and call anything on anything, in any order, with any number of calls that fail: every builder, controller, viewer, editor and saved state obtained is consistent. All shapes, dtypes and names fit, accumulators, defaults and updates correspond, builders have not started. Probabilities and residuals are between 0 and 1, iteration counts, epsilon and depression constant in their ranges, in exact and in IEEE arithmetic; this also with any interleaving of threads. Building, saving, loading, making a viewer or editor and passing through jit therefore never fail. What is asked of the user: arguments are arrays, functions given to transform keep shape, dtype and range, editors are not silenced, no None is exchanged for a tensor with an editor, and no NaN is handed in.",
  "all histories of calls on all objects, including calls that raise, all arguments with the provisos stated, all interleavings of threads, any arithmetic (ranges: exact numbers and all binary formats of at least two bits)", "Quantifies over all histories through five classes; a test follows a few paths.",
  [C+"ACT_Controller", B+"ControllerBuilder", V+"ACTViewer", E+"TensorEditor", S+"ACTStates"])
p("C91", "Edits do not depend on each other; checkpoints can be restored",
  "Through an editor in the mode 'standard', whether a setter call is accepted, and what it raises, does not depend on the setter calls before it. The last accepted call about something (a statistic, epsilon, or the accumulator, default or update of one name) decides its value; everything else stays, including the depression constant, the error mode and the names, which no setter is about. The order of calls about different things does not matter, and setting something to its own value changes nothing. One setter call for each thing that can be set, in any order, turns an editor on a controller of the same kind (shapes, dtypes, names, structures, depression constant) into one that holds any saved state whose numbers are in range and whose pending updates fit; in particular whatever a controller has computed can be restored into the fresh controller.",
  "all well-formed states, all sequences of setter calls with any arguments made of arrays (that do not exchange None and tensors, C34), all permutations, any arithmetic", "Quantifies over all sequences and orders of edits, accepted and refused, and all states.",
  [E+"TensorEditor.set_probabilities", E+"TensorEditor.set_residuals", E+"TensorEditor.set_iterations", E+"TensorEditor.set_epsilon", E+"TensorEditor.set_accumulator", E+"TensorEditor.set_defaults", E+"TensorEditor.set_updates", S+"ACTStates.replace"])
p("C92", "The contract checks name the rule that a layer broke",
  "When execute_act is asked to check for errors, an error raised after make_controller or run_iteration states a fact about what the layer returned: not a controller (with its class), no accumulators, not a tuple (with its class), a tuple of another length than two (with the length), the same controller as before, all accumulators filled but never committed, or some updates left waiting. The first of these that holds is the one told, with its exception class; nothing that holds, no error. No two of them read the same, and apart from the text the outcomes are those of the other properties.",
  "all layers, returned objects, controllers, user states, class names without newlines and any arithmetic", "Quantifies over all layers and everything they may return; which of several broken rules is told cannot be covered by samples.",
  [L+"ContractValidationWrapper", L+"ContractValidationWrapper.make_controller", L+"ContractValidationWrapper.run_iteration", U+"format_error_message"])
p("C93", "Errors of viewers, operators and pytrees say what is wrong",
  "ACTViewer.transform raises exactly when the user's function fails on some tensor, with a text that says so; mask_data names the shape of the mask and the batch shape; the editors list the error modes. A binary operator on pytrees says either that the operands do not fit, exactly when they do not, or the number of the first leaf on which the operator fails. Spreading one pytree over another names the first thing in the way: a branch over a tensor, two classes, two numbers of children, two keys, or the number of the first child inside which there is something in the way, each exactly when it is so. Different reasons read differently.",
  "all states, functions, masks, modes, operators, pytrees with names without newlines and any arithmetic", "Quantifies over all pytrees and functions: which of several obstacles is named, and that no two read the same, cannot be covered by samples.",
  [V+"ACTViewer.transform", V+"ACTViewer.mask_data", E+"edit_save", E+"edit_controller", U+"broadcast_pytree_shape", U+"execute_binary_operator", U+"format_error_message"])
p("C94", "Differentiating does not change what is computed",
  "Evaluating the controller, its views, editors, pytree comparisons and execute_act under jax.jvp, with any tangents, gives in the values exactly what they give without: the same calls raise the same exceptions, the same elements halt in the same steps, setters accept the same values, what compares equal is the same, execute_act makes the same iterations and returns the same values. Where no tangents go in, none come out.",
  "all controllers, histories, layers, bounds, and all tangents of all numbers (settings, accumulators, updates, halting probabilities, user states), exact arithmetic", "Quantifies over all tangents and histories; a test differentiates at a few points.",
  [C+"ACT_Controller.iterate_act", C+"ACT_Controller.cache_update", C+"ACT_Controller.reset_batches", V+"ACTViewer.unhalted_only", A+"AbstractACTTemplate.execute_act"])
p("C95", "The tangents are the derivatives",
  "When the numbers given to a controller depend on a parameter (weights of a layer), what jax.jvp returns is the derivative with respect to the parameter: for each element that is never exactly at a corner (a halting value of 0 or 1 that moves, a cumulative probability exactly at the threshold), all its probabilities, residuals, iteration counts and accumulator entries have the tangents as derivatives, and close by it halts in the same steps. The same for execute_act on layers in the style of the docstring with differentiable parts: the executions for all parameters return, and all numbers of the final controller and user state are differentiable with the tangents of the differentiated execution. At a corner the tangent need not be a derivative.",
  "all controllers, histories with resets and failing calls, smooth dependence on a parameter, layers with differentiable parts, all bounds, exact arithmetic", "A derivative is a limit: quantifies over all neighbourhoods and error bounds; finite differences in a test show neither.",
  [C+"ACT_Controller.iterate_act", C+"ACT_Controller._process_probabilities", C+"ACT_Controller.reset_batches", A+"AbstractACTTemplate.execute_act"])
p("C96", "Formulas for the derivatives",
  "Without resets the tangent of an accumulator entry is that of its default, plus the tangents of the updates with the weights of adaptive computation time, plus the tangents of the effective halting probabilities times the differences between the updates of their steps and the update of the halting step (times the updates, when not halted). The tangent of the residual is minus the sum of those of the probabilities before the halting step; a halted element has cumulative probability of tangent zero; iteration counts have tangent zero; epsilon's tangent has no influence. The tangents of the results are linear in those of what goes in.",
  "all controllers, histories without resets, including failing calls, all tangents, batch elements and accumulator entries, exact arithmetic", "Quantifies over all histories, halting steps and tangents.",
  [C+"ACT_Controller.iterate_act", C+"ACT_Controller._process_probabilities", C+"ACT_Controller._update_accumulator"])
p("C97", "How long a computation takes",
  "An element whose halting values all lie between lo and hi halts within m iterations when m steps of depression_constant * lo exceed 1 - epsilon, and does not halt within m iterations when m steps of depression_constant * hi do not; its residual is bounded accordingly. With a steady value h it halts in iteration floor((1 - epsilon) / (depression_constant * h)) + 1. Dividing the depression constant by k makes a steady computation k times as long, up to fewer than k iterations. The loop of execute_act makes that many iterations, unless max_iterations is lower.",
  "all controllers, histories without resets including failing calls, bounds lo and hi, batch elements, layers in the style of the docstring, exact arithmetic", "Quantifies over all histories, depression constants and numbers of iterations.",
  [C+"ACT_Controller.iterate_act", C+"ACT_Controller._process_probabilities", A+"AbstractACTTemplate.execute_act"])
p("C98", "What is computed for a finished element is ignored",
  "Once an element has halted, whatever the layer goes on computing for it (updates and halting probabilities, also NaN and infinities, as happens when a layer keeps iterating on finished elements) changes neither its result nor the fact that it has halted.",
  "all controllers, call histories without resets, binary floating point formats, contents of updates and halting tensors including NaN and infinities, layers in the style of the docstring", "Quantifies over all floating point contents and histories; no test feeds NaN to a halted element.",
  [C+"ACT_Controller.iterate_act", C+"ACT_Controller._process_probabilities", C+"ACT_Controller.reset_batches", A+"AbstractACTTemplate.execute_act"])
p("C99", "An iteration with halting probability zero contributes nothing",
  "An iterate_act in which a running element has a halting probability of zero or less leaves the probability, the residual and all accumulator entries of the element as they were, does not halt it, and adds one to its iteration count, whatever its updates.",
  "all controllers, halting tensors, updates, in exact arithmetic and in all binary floating point formats", "Quantifies over all tensor contents including infinities and NaN.",
  [C+"ACT_Controller.iterate_act", C+"ACT_Controller._update_accumulator"])
p("C100", "The order of accumulator definitions does not matter",
  "Two sequences of builder calls (definitions direct or by shape, redefinitions, deletions) that contain, for every accumulator name, the same calls about that name in the same order, raise the same exceptions at the same calls and build controllers that cannot be told apart: every later history of calls returns the same, and a layer that starts from either computes the same results. What is built for a name depends only on the calls about that name; the last accepted definition is the one that counts.",
  "all builders, all sequences of builder calls, all interleavings, all later histories and layer executions", "Quantifies over all interleavings of call sequences of any length.",
  [B+"ControllerBuilder.define_accumulator_directly", B+"ControllerBuilder.define_accumulator_by_shape", B+"ControllerBuilder._delete_definition", A+"AbstractACTTemplate.execute_act"])
p("C101", "A place of the batch can be used for one input after another",
  "After a reset_batches that finds an element halted, everything computed for the element is what a new controller would compute: probability, residual, iteration count and accumulators; calls that return would return there too. What was done for the element before, the other elements, and resets that find it running have no influence. So a sequence of inputs, each run until the element has halted and followed by a reset_batches that returns, gives for each input the results of a new controller.",
  "all controllers, all histories of calls (with resets at any time and failing calls), all elements; exact arithmetic and all binary floating point formats, NaN and infinities included", "Quantifies over all histories of any length and all positions of the resets.",
  [C+"ACT_Controller.reset_batches", C+"ACT_Controller.iterate_act", C+"ACT_Controller.cache_update"])
p("C102", "Small changes of the inputs make small changes of the results",
  "Two computations whose effective halting probabilities differ in total by dh, whose updates lie between lo and hi and differ by at most du, and whose defaults differ by at most dd: once both have halted their results differ by at most dd + du + (dh + epsilon) * (hi - lo), and by at most dd + du + dh * (hi - lo) if they halted in the same iteration. While both are running the difference is at most dd + du + dh * m, m bounding the sizes of the updates. At the threshold the result does jump, by epsilon * (hi - lo).",
  "all pairs of controllers (same epsilon), histories with resets and failing calls, batch elements, accumulators and entries, and all bounds, exact arithmetic", "A bound over all perturbations; tests perturb a few inputs and do not hit the threshold.",
  [C+"ACT_Controller.iterate_act", C+"ACT_Controller._process_probabilities", C+"ACT_Controller._update_accumulator"])
p("C103", "Larger halting probabilities cost no more",
  "The ponder cost of a halted element, iterations + residual, lies between iterations + epsilon and iterations + 1. If the effective halting probabilities of one element are in every iteration since its reset at most those of another, and the first has halted, so has the other, and its ponder cost is at most that of the first: with as many iterations its residual is at most that of the first, otherwise it took at least one iteration less.",
  "all pairs of controllers (epsilon of the first at most that of the second), histories with resets and failing calls, batch elements, in exact arithmetic; without resets in every binary format of at least 2 bits, for up to 2^precision iterations and with NaN excluded (the sum of the stored iterations and residual taken exactly)", "Quantifies over all pairs of histories; the two summands move in opposite directions when the halting iteration changes.",
  [C+"ACT_Controller.iterate_act", C+"ACT_Controller._process_probabilities", C+"ACT_Controller.residuals", C+"ACT_Controller.iterations"])
p("C104", "A call that overwrites an accumulator warns, and no other",
  "A builder call issues the warning 'Accumulator and defaults are being overwritten' exactly if it replaces the definition of an accumulator by another. Violated: define_accumulator_directly overwrites without a warning, and define_accumulator_by_shape warns also when it then raises and overwrites nothing. Proved: define_accumulator_by_shape issues it, once, exactly if a definition of the name is in force (an accepted earlier call defined it and no accepted later one deleted it), other calls never do, and nothing else depends on it; if warnings are errors, such a call raises the warning and changes nothing, so definitions by shape never replace a definition, and programs that show no warning do the same as before.",
  "all sequences of definitions and deletions, accepted or refused, on any builder, all names, shapes and definitions, every arithmetic", "Whether a definition is in force depends on the whole history of accepted and refused calls.",
  [B+"ControllerBuilder.define_accumulator_by_shape", B+"ControllerBuilder.define_accumulator_directly", B+"ControllerBuilder._delete_definition"])
p("C105", "Arrays have the dtype that was requested",
  "The statistics of a controller have the core_dtype given to new_builder (float32 if none is given), and the arrays of an accumulator defined by shape have the dtype given to define_accumulator_by_shape, whatever else is defined and however long the controller is used. Violated in JAX's default mode, where float64 becomes float32 (JAX warns). Proved: exact with 64-bit types enabled; without them exact up to that replacement, and no array the library makes is ever float64.",
  "both settings of jax_enable_x64, all batch shapes, dtypes, sequences of builder calls (accepted or refused), histories of the controller, every arithmetic", "Quantifies over all dtypes, definitions and histories; the repository's tests use the defaults.",
  [B+"ControllerBuilder.new_builder", B+"ControllerBuilder.define_accumulator_by_shape", C+"ACT_Controller.iterate_act", C+"ACT_Controller.reset_batches"])
p("C106", "The documented example makes a working controller",
  "The example in the documentation of ControllerBuilder (new_builder, two definitions by shape, build) gives a controller with the accumulators 'state' and 'output', to which updates can be cached. Violated: the example does not assign what the definitions return, so for all sizes every call returns, but the controller has no accumulators and cache_update raises ValueError for every name and item; the same after any calls on a builder whose results are not assigned. Proved for the example with the results assigned, for all sizes.",
  "all batch, state and output sizes, dtypes, fills, epsilon, depression constants, error modes, all sequences of calls whose results are dropped, objects on a heap with sharing, every arithmetic", "Quantifies over all sizes and over all sequences of dropped calls.",
  [B+"ControllerBuilder", B+"ControllerBuilder.define_accumulator_by_shape", B+"ControllerBuilder.build", C+"ACT_Controller.cache_update"])
p("C107", "Epsilon can be changed during a computation",
  "After set_epsilon in the middle of a computation the rule 'a halted element has handed out all of its weights, and its residual is the last of them' still holds. Violated when epsilon is raised: an element that is running with cumulative probability p > 1 - epsilon is from then on halted, with residual 0 and weights that sum to p < 1; nothing but a reset changes its accumulators, and every later iteration reports its cumulative probability as 1. Proved when epsilon is lowered: no element's halting changes, and after any further calls halted elements have cumulative probability 1 and a residual between the new epsilon and 1, running ones residual 0; and in general exactly when no running element has p > 1 - epsilon for the new epsilon.",
  "all controllers from the builder, all histories before and after the change, all elements, all values of epsilon in (0,1], exact arithmetic (the violation also in IEEE-754 arithmetic)", "Quantifies over all histories before and after the change.",
  [E+"TensorEditor.set_epsilon", C+"ACT_Controller.iterate_act", C+"ACT_Controller.halted_batches"])
out = os.path.join(os.path.dirname(os.path.abspath(__file__)), "..", "properties.jsonl")
with open(out, "w") as f:
    for x in P: f.write(json.dumps(x) + "\n")
print(len(P))
