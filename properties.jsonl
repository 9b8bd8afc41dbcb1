{"id": "C01", "title": "Cumulative probability stays a probability", "statement": "Starting from a controller whose cumulative probabilities lie in [0,1], whose epsilon lies in [0,1] and whose depression constant is >= 0, after any sequence of cache_update / iterate_act / reset_batches calls (calls that raise change nothing) every entry of controller.probabilities lies in [0,1] and never decreases except by a reset to exactly 0.", "quantifier": "all controllers, all batch shapes, all finite call sequences, all halting tensors (also outside [0,1])", "why_tests_cant": "An invariant over unbounded call histories and all tensor contents.", "anchors": ["src/jax_act/core/controller.py:ACT_Controller._process_probabilities", "src/jax_act/core/controller.py:ACT_Controller.iterate_act", "src/jax_act/core/controller.py:ACT_Controller.reset_batches"]}
{"id": "C02", "title": "No rounding overshoot: halting lands exactly on 1.0 in IEEE arithmetic", "statement": "In IEEE-754 binary arithmetic (float16, bfloat16, float32, float64; round to nearest even) the cumulative probability of a batch element stays a finite number in [0,1] through any sequence of calls with non-NaN halting probabilities and a depression constant >= 0 that is finite in the format of the arrays, and it becomes exactly 1.0 in the step in which the element halts.", "quantifier": "all IEEE formats of precision >= 2, all finite inputs, all histories", "why_tests_cant": "2^32 probabilities times 2^32 halting values times histories; rounding corner cases are not sampled by tests with allclose.", "anchors": ["src/jax_act/core/controller.py:ACT_Controller._process_probabilities"]}
{"id": "C03", "title": "A halted batch element is frozen by iterate_act", "statement": "If a batch element is halted when iterate_act is called and the call returns, then every element of every accumulator leaf belonging to it, its residual and its iteration count are bit-for-bit unchanged, whatever the update contains (also NaN and infinity).", "quantifier": "all controllers, updates, halting tensors, arithmetics (exact and IEEE, NaN included)", "why_tests_cant": "Quantifies over every tensor content including non-finite values.", "anchors": ["src/jax_act/core/controller.py:ACT_Controller._update_accumulator", "src/jax_act/core/controller.py:ACT_Controller.iterate_act"]}
{"id": "C04", "title": "Halting is permanent until reset", "statement": "With epsilon > 0 and a depression constant >= 0 (in IEEE arithmetic: epsilon in [0,1], probabilities in [0,1], no NaN halting values), an element that is halted stays halted through any sequence of cache_update and iterate_act calls; only reset_batches un-halts it.", "quantifier": "all call sequences without reset", "why_tests_cant": "Unbounded histories.", "anchors": ["src/jax_act/core/controller.py:ACT_Controller._process_probabilities", "src/jax_act/core/controller.py:ACT_Controller.halted_batches"]}
{"id": "C05", "title": "The controller computes Graves' adaptive computation time", "statement": "Take a newly built controller with 0 < epsilon <= 1 and a depression constant >= 0. For each batch element, let h_1..h_n be the effective halting probabilities (depression constant times the clamped input) committed since the element was last (re)started, and u_1..u_n the updates. Let N be the first index whose cumulative sum exceeds 1-epsilon. The controller then reports: weights w_k = h_k for k<N, w_N = 1 - sum_{k<N} h_k, w_k = 0 for k>N; accumulator = default + sum w_k u_k; probability = sum w_k; residual = w_N (0 if not halted); iterations = min(n,N). This holds after any interleaving of cache_update, iterate_act and reset_batches calls, where a call that raises changes nothing.", "quantifier": "all batch shapes, accumulators (any number, any pytree), update trees, halting tensors and call histories", "why_tests_cant": "A refinement to an independent specification over unbounded histories and sizes.", "anchors": ["src/jax_act/core/controller.py:ACT_Controller.iterate_act", "src/jax_act/core/controller.py:ACT_Controller.reset_batches", "src/jax_act/core/controller.py:ACT_Controller.cache_update"]}
{"id": "C06", "title": "Halted outputs are convex combinations", "statement": "In a controller built with 0 < epsilon <= 1 and a depression constant >= 0, once a batch element has halted, the weights applied to its updates are non-negative and sum to exactly one, so the accumulated value minus the default lies between the smallest and the largest update it was given.", "quantifier": "all histories", "why_tests_cant": "Needs the sum over an unbounded history.", "anchors": ["src/jax_act/core/controller.py:ACT_Controller._process_probabilities", "src/jax_act/core/controller.py:ACT_Controller._update_accumulator"]}
{"id": "C07", "title": "Residual and iteration statistics", "statement": "In a controller built with 0 < epsilon <= 1 and a depression constant >= 0, the residual of an element is 0 until it halts; in the halting step it becomes 1 minus the cumulative probability before that step (the weight given to the last update) and lies in [0,1]. The iteration count equals the number of committed iterations in which the element was not yet halted.", "quantifier": "all histories", "why_tests_cant": "Relates a stored statistic with the whole history.", "anchors": ["src/jax_act/core/controller.py:ACT_Controller._process_probabilities", "src/jax_act/core/controller.py:ACT_Controller.iterations"]}
{"id": "C08", "title": "Batch elements do not influence each other", "statement": "Two controllers with the same structure, shapes and dtypes that agree on the data of batch element b, given updates and halting tensors that agree on element b, either both raise the same error or both succeed in iterate_act with results that agree on element b. The contents (also NaN) of other batch elements are irrelevant.", "quantifier": "all pairs of controllers, all b", "why_tests_cant": "A relational (2-safety) property over all tensor contents.", "anchors": ["src/jax_act/core/controller.py:ACT_Controller.iterate_act", "src/jax_act/core/utils.py:setup_left_broadcast"]}
{"id": "C09", "title": "iterate_act commits every accumulator exactly once", "statement": "iterate_act raises unless every accumulator has a pending update; when it succeeds every accumulator's pending slot is empty, so a second iterate_act without new cache_update calls raises.", "quantifier": "all controllers with at least one accumulator", "why_tests_cant": "Ranges over all sets of accumulators and pending slots.", "anchors": ["src/jax_act/core/controller.py:ACT_Controller.iterate_act"]}
{"id": "C10", "title": "cache_update is precise", "statement": "cache_update(name, item) raises ValueError for an unknown accumulator, RuntimeError if the slot is pending, and otherwise returns a controller that differs only in that one slot; updates for distinct accumulators may be cached in any order with the same result. updates_ready_to_commit is true iff every accumulator has a pending update, has_cached_updates iff some accumulator has one.", "quantifier": "all controllers, names, items", "why_tests_cant": "All names and states; commutation is relational.", "anchors": ["src/jax_act/core/controller.py:ACT_Controller.cache_update", "src/jax_act/core/controller.py:ACT_Controller.updates_ready_to_commit", "src/jax_act/core/controller.py:ACT_Controller.has_cached_updates"]}
{"id": "C11", "title": "Structure, shapes and dtypes are stable", "statement": "No sequence of cache_update / iterate_act / reset_batches changes the set of accumulators, the tree structure, leaf shapes or leaf dtypes of any accumulator, the defaults, the batch shape, epsilon or the depression constant.", "quantifier": "all call histories", "why_tests_cant": "Invariant over unbounded histories and arbitrary pytrees.", "anchors": ["src/jax_act/core/controller.py:ACT_Controller.iterate_act", "src/jax_act/core/controller.py:ACT_Controller.reset_batches", "src/jax_act/core/utils.py:merge_pytrees"]}
{"id": "C12", "title": "Out of range halting probabilities are clamped", "statement": "iterate_act(h) returns exactly what iterate_act(clip(h,0,1)) returns: values above one act like one and values below zero act like zero. The same holds bit for bit in IEEE arithmetic, infinities, NaN and negative zero included.", "quantifier": "all controllers and halting tensors", "why_tests_cant": "All tensor contents.", "anchors": ["src/jax_act/core/controller.py:ACT_Controller.iterate_act"]}
{"id": "C13", "title": "iterate_act succeeds on well-formed input", "statement": "For a well-formed controller with floating accumulators of the core dtype and matching pending updates, iterate_act of a halting tensor with the batch shape and core dtype never raises; with another shape it raises ValueError.", "quantifier": "all well-formed controllers", "why_tests_cant": "Totality over all shapes and pytrees.", "anchors": ["src/jax_act/core/controller.py:ACT_Controller.iterate_act", "src/jax_act/core/controller.py:ACT_Controller._update_accumulator"]}
{"id": "C14", "title": "Accumulators may have any floating dtype", "statement": "Any accumulator the builder accepts can be iterated with updates of its own dtype. (Violated: an accumulator of lower precision than the probabilities is accepted by the builder, but iterate_act always raises.)", "quantifier": "all dtypes the builder accepts", "why_tests_cant": "All dtype combinations and states.", "anchors": ["src/jax_act/core/builder.py:ControllerBuilder._validate_definition_pytree", "src/jax_act/core/controller.py:ACT_Controller._update_accumulator"]}
{"id": "C15", "title": "reset_batches resets exactly the halted elements", "statement": "If reset_batches returns, then for halted elements the accumulators equal the defaults and probability, residual and iterations are 0, and everything belonging to elements that are not halted, as well as defaults and pending slots, is unchanged. In IEEE arithmetic everything of a running element and every accumulator is preserved or restored bit for bit, and a statistic of a halted element becomes a zero of its own sign (NaN if it was not finite).", "quantifier": "all well-formed controllers", "why_tests_cant": "All tensor contents and shapes.", "anchors": ["src/jax_act/core/controller.py:ACT_Controller.reset_batches"]}
{"id": "C16", "title": "reset_batches supports every accumulator the controller supports", "statement": "reset_batches works for accumulators that are pytrees, as iterate_act does. (Violated: with batch dimensions, any accumulator that is a dict, list or tuple with a leaf makes reset_batches raise AttributeError, because the tree instead of the leaf is passed to the broadcast helper.)", "quantifier": "all pytree accumulators", "why_tests_cant": "All pytree structures.", "anchors": ["src/jax_act/core/controller.py:ACT_Controller.reset_batches"]}
{"id": "C17", "title": "reset_batches is guarded and idempotent", "statement": "reset_batches raises RuntimeError exactly when an update is pending (for tensor accumulators), and resetting twice gives the same controller as resetting once when the threshold is >= 0 (bit for bit in IEEE arithmetic, there also for a NaN epsilon).", "quantifier": "all controllers", "why_tests_cant": "All states.", "anchors": ["src/jax_act/core/controller.py:ACT_Controller.reset_batches"]}
{"id": "C18", "title": "The depression constant scales halting", "statement": "Running with depression constant d on halting probabilities h equals running with constant 1 on d*h whenever d is in [0,1]; d = 0 never advances or halts an element that is not halted. In IEEE arithmetic d = 0 leaves probability, residual, halting and every accumulator entry with a finite update as they were (zeros may change sign), for every halting value that is not NaN.", "quantifier": "all d, all controllers", "why_tests_cant": "All real scalings.", "anchors": ["src/jax_act/core/controller.py:ACT_Controller._process_probabilities", "src/jax_act/core/builder.py:ControllerBuilder.new_builder"]}
{"id": "C19", "title": "Depression constants are sane", "statement": "No accepted depression constant can break the probability invariants. (Violated: the constant is not validated; a negative constant makes cumulative probabilities negative and un-halts halted elements.)", "quantifier": "all depression constants", "why_tests_cant": "All values.", "anchors": ["src/jax_act/core/builder.py:ControllerBuilder.new_builder", "src/jax_act/core/controller.py:ACT_Controller._process_probabilities"]}
{"id": "C20", "title": "Enough halting mass always halts", "statement": "Under exact arithmetic, in a controller built with 0 < epsilon <= 1 and a depression constant >= 0, an element is halted exactly when its committed effective halting probabilities since its last restart sum to more than 1-epsilon; is_completely_halted / is_any_halted are true iff all / some elements are halted.", "quantifier": "all histories", "why_tests_cant": "Unbounded histories.", "anchors": ["src/jax_act/core/controller.py:ACT_Controller.halted_batches", "src/jax_act/core/controller.py:ACT_Controller.is_completely_halted"]}
{"id": "C21", "title": "Every accepted epsilon allows halting", "statement": "For every epsilon new_builder accepts a controller can halt. (Violated in floating point: for float32 and epsilon below 2^-25 the threshold rounds to 1.0 and no element can ever halt; a NaN epsilon is accepted and never halts.)", "quantifier": "all epsilons, all IEEE inputs", "why_tests_cant": "Rounding corner cases.", "anchors": ["src/jax_act/core/builder.py:ControllerBuilder.new_builder", "src/jax_act/core/controller.py:ACT_Controller.halt_threshold"]}
{"id": "C22", "title": "new_builder returns a usable builder", "statement": "new_builder with 0 < epsilon < 1 and a floating dtype returns a builder with zero probabilities, residuals and iterations of the batch shape and no accumulators. (Violated: ACTStates requires error_mode, which new_builder does not pass, so every call with valid arguments raises TypeError.)", "quantifier": "all arguments", "why_tests_cant": "All arguments.", "anchors": ["src/jax_act/core/builder.py:ControllerBuilder.new_builder", "src/jax_act/core/states.py:ACTStates"]}
{"id": "C23", "title": "new_builder rejects insane arguments", "statement": "new_builder raises ValueError exactly when the dtype is not floating or epsilon is outside (0,1).", "quantifier": "all arguments", "why_tests_cant": "All arguments.", "anchors": ["src/jax_act/core/builder.py:ControllerBuilder.new_builder"]}
{"id": "C24", "title": "Accumulator definitions are checked", "statement": "define_accumulator_directly accepts a pytree iff every leaf is floating and has the batch shape as shape prefix; TypeError / ValueError otherwise.", "quantifier": "all pytrees and batch shapes", "why_tests_cant": "All pytrees.", "anchors": ["src/jax_act/core/builder.py:ControllerBuilder._validate_definition_pytree", "src/jax_act/core/builder.py:ControllerBuilder.define_accumulator_directly"]}
{"id": "C25", "title": "Definitions only touch the named accumulator", "statement": "An accepted definition sets default and accumulator of that name to the definition and its pending slot to empty, and leaves all other accumulators, probabilities, residuals, iterations, epsilon alone.", "quantifier": "all builders, names", "why_tests_cant": "All names and states.", "anchors": ["src/jax_act/core/builder.py:ControllerBuilder._define"]}
{"id": "C26", "title": "define_accumulator_by_shape builds what the shape tree says", "statement": "If every leaf position of the shapes pytree is a list of ints the result has the same structure with a tensor of that shape, the requested dtype and the fill value at each position; otherwise ValueError.", "quantifier": "all shape pytrees", "why_tests_cant": "All pytrees.", "anchors": ["src/jax_act/core/builder.py:ControllerBuilder.define_accumulator_by_shape"]}
{"id": "C27", "title": "Builders only produce well-formed controllers", "statement": "After any sequence of define / delete calls (calls that raise change nothing) from a fresh builder, build() returns a controller whose three tables have the same names and whose every accumulator satisfies the batch-shape contract, so that iterate_act and reset_batches meet their preconditions.", "quantifier": "all call sequences", "why_tests_cant": "Invariant over unbounded histories.", "anchors": ["src/jax_act/core/builder.py:ControllerBuilder"]}
{"id": "C28", "title": "Masking keeps or zeroes", "statement": "mask_data(mask) leaves entries of batch elements with mask True unchanged and makes all others zero in probabilities, residuals, iterations, accumulators and defaults (exact arithmetic), and preserves structure and shapes; wrong dtype or shape raises ValueError.", "quantifier": "all well-formed viewers and masks", "why_tests_cant": "All tensors and pytrees.", "anchors": ["src/jax_act/core/viewer.py:ACTViewer.mask_data", "src/jax_act/core/viewer.py:ACTViewer.transform"]}
{"id": "C29", "title": "Masking hides non-finite values", "statement": "Masked-away entries are zero whatever they contained. (Violated in IEEE arithmetic: the mask multiplies, so NaN and infinity become NaN.)", "quantifier": "all IEEE contents", "why_tests_cant": "Non-finite contents.", "anchors": ["src/jax_act/core/viewer.py:ACTViewer.mask_data"]}
{"id": "C30", "title": "halted_only and unhalted_only partition the data", "statement": "For every entry, halted_only plus unhalted_only gives back the original entry, and one of the two is zero. In IEEE arithmetic one of the two views shows the entry bit for bit and the other a zero of its sign (NaN for an entry that is not finite).", "quantifier": "all well-formed viewers", "why_tests_cant": "All tensors.", "anchors": ["src/jax_act/core/viewer.py:ACTViewer.halted_only", "src/jax_act/core/viewer.py:ACTViewer.unhalted_only"]}
{"id": "C31", "title": "Viewing transforms show the pending updates", "statement": "After transform(f), viewer.updates holds f of the pending updates (None where nothing is pending). (Violated: transform rebuilds the updates from the defaults, so pending updates are lost and every slot looks pending.)", "quantifier": "all viewers", "why_tests_cant": "All states.", "anchors": ["src/jax_act/core/viewer.py:ACTViewer.transform"]}
{"id": "C32", "title": "Masks compose", "statement": "mask_data(m1) followed by mask_data(m2) equals mask_data(m1 & m2); in particular masking is idempotent. Both hold bit for bit in IEEE arithmetic.", "quantifier": "all viewers and mask pairs", "why_tests_cant": "All masks and tensors.", "anchors": ["src/jax_act/core/viewer.py:ACTViewer.mask_data"]}
{"id": "C33", "title": "Editor setters validate exactly what they promise", "statement": "In standard mode set_probabilities, set_residuals, set_iterations and set_epsilon succeed iff shape and dtype match and the contents are in range ([0,1] / >= 0), and then change exactly that one field.", "quantifier": "all editors and values", "why_tests_cant": "All tensors.", "anchors": ["src/jax_act/core/tensoreditor.py:TensorEditor.set_probabilities", "src/jax_act/core/tensoreditor.py:TensorEditor.set_residuals", "src/jax_act/core/tensoreditor.py:TensorEditor.set_iterations", "src/jax_act/core/tensoreditor.py:TensorEditor.set_epsilon"]}
{"id": "C34", "title": "set_accumulator / set_defaults only accept like for like", "statement": "In standard mode set_accumulator succeeds only with a pytree of the same structure, shapes and dtypes. (Violated: None subtrees and leaves are conflated, so a tensor accumulator may be replaced by None.)", "quantifier": "all editors, names, pytrees", "why_tests_cant": "All pytrees.", "anchors": ["src/jax_act/core/tensoreditor.py:TensorEditor.set_accumulator", "src/jax_act/core/tensoreditor.py:TensorEditor.set_defaults", "src/jax_act/core/utils.py:are_pytree_structure_equal"]}
{"id": "C35", "title": "Silenced editors never raise", "statement": "In silence mode no setter raises and the given value is stored verbatim; an error mode other than standard / silence is rejected with ValueError when the editor is opened.", "quantifier": "all editors and values", "why_tests_cant": "All inputs.", "anchors": ["src/jax_act/core/tensoreditor.py:TensorEditor._execute_validation", "src/jax_act/core/tensoreditor.py:TensorEditor.edit_controller"]}
{"id": "C36", "title": "set_updates edits one slot", "statement": "set_updates with None clears the slot and with a tree like the default sets it; an unknown name raises a checkify error. (Violated: for a non-None value an unknown name raises KeyError.)", "quantifier": "all editors", "why_tests_cant": "All names and pytrees.", "anchors": ["src/jax_act/core/tensoreditor.py:TensorEditor.set_updates"]}
{"id": "C37", "title": "Edited controllers remain well-formed", "statement": "A controller built after any sequence of successful standard-mode edits with trees that contain no None nodes still satisfies the well-formedness invariant used by iterate_act.", "quantifier": "all edit sequences", "why_tests_cant": "Unbounded histories.", "anchors": ["src/jax_act/core/tensoreditor.py:TensorEditor"]}
{"id": "C38", "title": "Pytree round trip", "statement": "Flattening a controller, builder, viewer or editor to leaves and rebuilding it gives back an equal object (dictionary order aside), for every structure of accumulators, pending or empty slots.", "quantifier": "all objects", "why_tests_cant": "All pytrees.", "anchors": ["src/jax_act/core/states.py:state_flatten", "src/jax_act/core/states.py:state_unflatten", "src/jax_act/core/controller.py:flatten_controller", "src/jax_act/core/controller.py:unflatten_controller", "src/jax_act/core/tensoreditor.py:flatten_editor"]}
{"id": "C39", "title": "Controllers can cross a jit boundary", "statement": "All leaves of a controller are numeric so that it can be an argument or result of jit / while_loop. (Violated: error_mode is a string leaf; execute_act refuses such a controller with TypeError before the first iteration.)", "quantifier": "all states", "why_tests_cant": "All states.", "anchors": ["src/jax_act/core/states.py:ACTStates", "src/jax_act/core/states.py:state_flatten", "src/jax_act/layers/act.py:AbstractACTTemplate.execute_act"]}
{"id": "C40", "title": "save / load round trip and shared state", "statement": "load(save(c)) behaves exactly like c; make_viewer shows exactly the controller's tensors. controller[name] is the accumulator of that name, a KeyError for any other name.", "quantifier": "all controllers", "why_tests_cant": "All states.", "anchors": ["src/jax_act/core/controller.py:ACT_Controller.save", "src/jax_act/core/controller.py:ACT_Controller.load", "src/jax_act/core/controller.py:ACT_Controller.make_viewer", "src/jax_act/core/controller.py:ACT_Controller.__getitem__"]}
{"id": "C41", "title": "Methods never modify their receiver", "statement": "cache_update, iterate_act, reset_batches, define_*, set_*, transform and mask_data allocate new objects: no dictionary or state object that existed before the call is modified, even if the call raises, so older controllers keep their observable contents through any later history.", "quantifier": "all heaps, all histories", "why_tests_cant": "Aliasing over unbounded histories.", "anchors": ["src/jax_act/core/controller.py:ACT_Controller.cache_update", "src/jax_act/core/controller.py:ACT_Controller.iterate_act", "src/jax_act/core/states.py:ACTStates.replace", "src/jax_act/core/immutable.py:Immutable"]}
{"id": "C42", "title": "Immutable objects reject assignment", "statement": "After construction every attribute assignment raises AttributeError and changes nothing. (Violated for the attribute _is_immutable itself, which can be set to False and re-enables mutation; deletion of attributes is not guarded at all.)", "quantifier": "all attribute names and assignment sequences", "why_tests_cant": "All sequences of assignments.", "anchors": ["src/jax_act/core/immutable.py:Immutable"]}
{"id": "C43", "title": "can_right_broadcast decides numpy compatibility", "statement": "can_right_broadcast(a,b) is True iff the shapes are compatible under the numpy broadcasting rule.", "quantifier": "all pairs of shapes", "why_tests_cant": "All shapes.", "anchors": ["src/jax_act/core/utils.py:can_right_broadcast"]}
{"id": "C44", "title": "setup_left_broadcast aligns on the left", "statement": "For a non-scalar tensor whose rank is at most the target's, the result has the target's rank, the tensor's dims first and ones after, and the same data; a higher rank raises AssertionError; a scalar is returned unchanged. If the tensor's shape is a prefix of the target's, broadcasting repeats each element over the trailing dims.", "quantifier": "all tensors", "why_tests_cant": "All shapes.", "anchors": ["src/jax_act/core/utils.py:setup_left_broadcast"]}
{"id": "C45", "title": "broadcast_pytree_shape replicates source leaves over target branches", "statement": "broadcast_pytree_shape(source, target) succeeds iff source is a tree prefix of target (a leaf of source may face any branch, an empty container of source may face any branch without leaves); the result has exactly the structure of target and at each target leaf the source leaf found on the path to it. Otherwise it raises RuntimeError when the two trees clash at some node, and AssertionError when only an empty source container faces leaves.", "quantifier": "all pairs of pytrees", "why_tests_cant": "All pytrees.", "anchors": ["src/jax_act/core/utils.py:broadcast_pytree_shape", "src/jax_act/core/utils.py:_replicate_leaves", "src/jax_act/core/utils.py:_count_linked_leaves"]}
{"id": "C46", "title": "execute_binary_operator applies operators leafwise in order", "statement": "The result has the structure of the larger operand and at every leaf operator(left operand leaf, right operand leaf) - never swapped - with ranks aligned on the left; RuntimeError is the only error.", "quantifier": "all pytrees and operators", "why_tests_cant": "All pytrees, operators.", "anchors": ["src/jax_act/core/utils.py:execute_binary_operator"]}
{"id": "C47", "title": "merge_pytrees pairs leaves", "statement": "merge_pytrees(f,p,a) succeeds iff leaf counts agree and f succeeds on all pairs; the result has the structure of p and leaf i is f(p_i,a_i).", "quantifier": "all pytrees and functions", "why_tests_cant": "All pytrees.", "anchors": ["src/jax_act/core/utils.py:merge_pytrees"]}
{"id": "C48", "title": "Structure comparison is exact", "statement": "are_pytree_structure_equal(a,b) is True iff a and b have the same structure. (Violated: a None node equals a leaf.) It is an equivalence relation and exact on trees without None.", "quantifier": "all pairs of pytrees", "why_tests_cant": "All pytrees.", "anchors": ["src/jax_act/core/utils.py:are_pytree_structure_equal"]}
{"id": "C49", "title": "Pytree equality", "statement": "are_pytrees_equal(a,b) returns True only for trees of equal structure and False for others. (Violated: structure is ignored and a differing leaf count raises AssertionError.)", "quantifier": "all pairs of pytrees", "why_tests_cant": "All pytrees.", "anchors": ["src/jax_act/core/utils.py:are_pytrees_equal"]}
{"id": "C50", "title": "execute_act terminates within max_iterations", "statement": "execute_act runs run_iteration at most max_iterations times, for every layer, and returns a controller that is completely halted or has been iterated exactly max_iterations times.", "quantifier": "all layers (arbitrary user functions), all bounds", "why_tests_cant": "Termination for arbitrary user code.", "anchors": ["src/jax_act/layers/act.py:AbstractACTTemplate.execute_act", "src/jax_act/layers/act.py:AbstractACTTemplate._is_act_not_complete"]}
{"id": "C51", "title": "execute_act equals the documented Python loop", "statement": "When nothing raises and the loop halts within max_iterations, execute_act returns what the documented loop 'while not halted: controller, state = run_iteration(controller, state)' returns.", "quantifier": "all layers", "why_tests_cant": "All user functions, unbounded iterations.", "anchors": ["src/jax_act/layers/act.py:AbstractACTTemplate.execute_act"]}
{"id": "C52", "title": "The contract checks catch violations of run_iteration", "statement": "With checks enabled, a run_iteration that does not return a pair, returns a non-controller, or returns the same controller object is rejected with TypeError / RuntimeError; with checks disabled the return value is passed through to the loop, and execute_act raises ValueError for anything that does not unpack into two items and TypeError for a pair that is not a controller and a state; a make_controller that does not return a controller is then an AttributeError.", "quantifier": "all return values", "why_tests_cant": "All return values.", "anchors": ["src/jax_act/layers/core.py:ContractValidationWrapper.run_iteration"]}
{"id": "C53", "title": "Uncommitted updates are detected", "statement": "With checks enabled a run_iteration whose returned controller still has pending updates is rejected. (Violated: the wrapper inspects the incoming controller instead of the returned one.)", "quantifier": "all return values", "why_tests_cant": "All return values.", "anchors": ["src/jax_act/layers/core.py:ContractValidationWrapper.run_iteration", "src/jax_act/layers/core.py:ContractValidationWrapper._validate_all_act_updates_committed"]}
{"id": "C54", "title": "make_controller is checked", "statement": "With checks enabled make_controller raises TypeError for a non-controller and RuntimeError for a controller without accumulators, and otherwise returns the user's controller.", "quantifier": "all return values", "why_tests_cant": "All return values.", "anchors": ["src/jax_act/layers/core.py:ContractValidationWrapper.make_controller"]}
{"id": "C55", "title": "ACT layers reach halting under a positive probability floor", "statement": "If every iteration commits effective halting probability at least q > 0 for each element, then after any number n of iterations with n*q > 1-epsilon the controller is completely halted, so execute_act with max_iterations >= n returns a completely halted controller.", "quantifier": "all q, epsilon, batch shapes", "why_tests_cant": "Unbounded iterations (liveness).", "anchors": ["src/jax_act/layers/act.py:AbstractACTTemplate.execute_act", "src/jax_act/core/controller.py:ACT_Controller.iterate_act"]}
{"id": "C56", "title": "State validators validate", "statement": "ACTStates.validate_epsilon/iterations/residuals and replace(depression_constant=...) / replace(error_mode=...) validate their operand and return it. (Violated: ErrorModes, validate_depression_constant and validate_error_mode do not exist, so they raise NameError / AttributeError; validate_residuals checks nothing.)", "quantifier": "all operands", "why_tests_cant": "All operands.", "anchors": ["src/jax_act/core/states.py:ACTStates.execute_validation", "src/jax_act/core/states.py:ACTStates.validate_epsilon", "src/jax_act/core/states.py:ACTStates.validate_residuals", "src/jax_act/core/states.py:ACTStates.replace"]}
{"id": "C57", "title": "replace changes exactly the given fields", "statement": "state.replace(...) with any subset of the numeric fields returns a state with exactly those fields replaced and all others shared.", "quantifier": "all subsets of fields", "why_tests_cant": "All subsets and values.", "anchors": ["src/jax_act/core/states.py:ACTStates.replace"]}
{"id": "C58", "title": "set_epsilon keeps halting possible", "statement": "An epsilon accepted by the editor lets elements halt: a controller built from the editor halts an element whose cumulative probability is raised by enough mass. (Violated: set_epsilon accepts 0, with which no element can ever exceed the threshold; in IEEE arithmetic the same holds for every epsilon too small for the format, whatever the halting values.)", "quantifier": "all controllers, all epsilon, all later call histories", "why_tests_cant": "The failure is the absence of halting over every history.", "anchors": ["src/jax_act/core/tensoreditor.py:TensorEditor.set_epsilon", "src/jax_act/core/controller.py:ACT_Controller.halt_threshold"]}
{"id": "C59", "title": "Lazy parameter set-up does not change results", "statement": "A flax layer with frozen parameters behaves like the same layer whose set-up does nothing. With mutable parameters (when setup_lazy_parameters runs one extra iteration) it returns the same, or raises the exception of that extra iteration.", "quantifier": "all layers, inputs, bounds", "why_tests_cant": "Arbitrary user functions.", "anchors": ["src/jax_act/frameworks/flax.py:FlaxACTLayer.setup_lazy_parameters", "src/jax_act/layers/act.py:AbstractACTTemplate.execute_act"]}
{"id": "C60", "title": "Steady halting probabilities halt the element in IEEE arithmetic", "statement": "An element that keeps receiving a positive halting probability bounded away from zero is eventually halted. (Violated in floating point: a probability of at most half a unit in the last place, 2^-25 for float32, is rounded away once the cumulative probability has reached 1/2, so the element never halts although the probabilities add up to any amount. It holds with bound 2^(prec+2) for all effective probabilities above that limit, and with bound 2^(prec+1) for those of at least 2^-prec.)", "quantifier": "all IEEE formats, all controllers and histories", "why_tests_cant": "Liveness over unbounded histories and rounding corner cases.", "anchors": ["src/jax_act/core/controller.py:ACT_Controller._process_probabilities"]}
{"id": "C61", "title": "The iteration count is exact in IEEE arithmetic", "statement": "controller.iterations of an element that is not halted equals the number of iterations committed. (Violated in floating point: the count is kept in the core dtype and stops at 2^prec: 256 for bfloat16, 2048 for float16, 16777216 for float32. It is exact up to there.)", "quantifier": "all IEEE formats, all controllers and histories", "why_tests_cant": "Needs histories longer than any test.", "anchors": ["src/jax_act/core/controller.py:ACT_Controller.iterate_act", "src/jax_act/core/builder.py:ControllerBuilder.new_builder"]}
{"id": "C62", "title": "Data handed out is not an alias of the internals", "statement": "Changing a dictionary got from the properties accumulators, defaults or updates, or a field of the state returned by save(), never changes a controller that existed before. (Violated: the properties and save() return the internal objects, ACTStates is a mutable dataclass, and cache_update shares the accumulators with its receiver, so c2.accumulators[k] = v also changes c. Only freshly made dictionaries are safe: accumulators and updates after iterate_act, accumulators after reset_batches, updates after cache_update, all three after transform or a definition.)", "quantifier": "all heaps, all objects, all keys and values", "why_tests_cant": "Aliasing between objects made by different calls.", "anchors": ["src/jax_act/core/controller.py:ACT_Controller.accumulators", "src/jax_act/core/controller.py:ACT_Controller.save", "src/jax_act/core/controller.py:ACT_Controller.cache_update", "src/jax_act/core/controller.py:ACT_Controller.iterate_act", "src/jax_act/core/states.py:ACTStates"]}
{"id": "C63", "title": "Batching is transparent", "statement": "A batch element evolves as if it were alone, whatever the batch around it looks like: if element b1 of one controller and element b2 of another (of possibly different batch shapes) are in the same condition and get corresponding data in corresponding calls (cache_update, iterate_act, reset_batches), then each call returns on one exactly if it returns on the other, raises the same kind of error, and the two elements stay in the same condition. In particular running element b cut out of the batch, with batch shape (), gives what element b of the batch gets. For reset_batches this needs accumulators that are tensors, or batch shapes both or neither (), because of C16.", "quantifier": "all pairs of batch shapes, elements, controllers, call histories and arithmetics", "why_tests_cant": "Quantifies over pairs of batch shapes and over histories.", "anchors": ["src/jax_act/core/controller.py:ACT_Controller.iterate_act", "src/jax_act/core/controller.py:ACT_Controller.cache_update", "src/jax_act/core/controller.py:ACT_Controller.reset_batches", "src/jax_act/core/utils.py:setup_left_broadcast"]}
{"id": "C64", "title": "Every batch element runs the scalar algorithm", "statement": "A controller is an array of independent scalar programs, in every arithmetic and bit for bit: the statistics of element i and every number of every accumulator after any history of calls are those computed by a short scalar program (iterate: add the clamped and depressed halting value, or what is missing to 1; reset: start a halted element again) from the halting values and updates that the calls which returned supplied for that element and that number. halted_batches is the halting test of the scalar program.", "quantifier": "all arithmetics, controllers, call histories with resets and raising calls, elements, accumulator entries", "why_tests_cant": "Arbitrary histories, shapes and arithmetics (rounding and NaN included).", "anchors": ["src/jax_act/core/controller.py:ACT_Controller.iterate_act", "src/jax_act/core/controller.py:ACT_Controller.cache_update", "src/jax_act/core/controller.py:ACT_Controller.reset_batches", "src/jax_act/core/controller.py:ACT_Controller.halted_batches"]}
{"id": "C65", "title": "Larger halting probabilities never halt later", "statement": "If one element never receives a larger halting value than another, and its controller has neither a larger epsilon nor a larger depression constant, then at every moment its cumulative probability is not larger, its iteration count not smaller, and whenever it is halted so is the other. Holds in exact and in IEEE arithmetic, across controllers and batch shapes.", "quantifier": "all pairs of controllers, elements and reset-free call histories; all IEEE formats", "why_tests_cant": "Relates two executions of arbitrary length; rounding could break monotonicity.", "anchors": ["src/jax_act/core/controller.py:ACT_Controller._process_probabilities", "src/jax_act/core/controller.py:ACT_Controller.iterate_act"]}
{"id": "C66", "title": "Weights add up to one under rounding", "statement": "The weights with which an element's updates are added are non-negative numbers whose exact sum differs from the cumulative probability by at most 2^-prec per contributing iteration; the probability is exactly 1.0 once the element is halted.", "quantifier": "all IEEE formats, controllers, reset-free call histories, elements", "why_tests_cant": "Accumulated rounding errors over unbounded histories.", "anchors": ["src/jax_act/core/controller.py:ACT_Controller._process_probabilities", "src/jax_act/core/controller.py:ACT_Controller._update_accumulators"]}
{"id": "C67", "title": "Accumulators are accurate under rounding", "statement": "Every entry of every accumulator differs from its default plus the exact sum of weight times update by at most the standard error bound of n fused steps (about (n+1) 2^-prec times the total magnitude), and is finite, as long as the magnitudes cannot overflow. If no update exceeds M in absolute value, this needs only a bound in n and M.", "quantifier": "all IEEE formats, controllers, reset-free call histories, accumulators, entries", "why_tests_cant": "Accumulated rounding errors over unbounded histories.", "anchors": ["src/jax_act/core/controller.py:ACT_Controller._update_accumulators", "src/jax_act/core/controller.py:ACT_Controller.iterate_act"]}
{"id": "C68", "title": "Rounding does not change clear halting decisions", "statement": "After m iterations an element is halted if the exact sum of its clamped and depressed halting values exceeds 1-epsilon by more than (m+1) 2^-prec, and is not halted if the sum stays below 1-epsilon by at least that much (depression constant at most 1, and for the first part an epsilon not lost in the format, see C21).", "quantifier": "all IEEE formats, controllers, reset-free call histories, elements", "why_tests_cant": "Accumulated rounding errors over unbounded histories.", "anchors": ["src/jax_act/core/controller.py:ACT_Controller._process_probabilities", "src/jax_act/core/controller.py:ACT_Controller.halt_threshold", "src/jax_act/core/controller.py:ACT_Controller.halted_batches"]}
{"id": "C69", "title": "The residual of a halted element is at least epsilon", "statement": "After any history a halted element has probability 1 and a residual between epsilon and 1, and an element that is not halted has residual 0. In IEEE arithmetic the residual is at least epsilon - 2*2^-prec, and never below 2^-prec, so it is never rounded away.", "quantifier": "all controllers, call histories with resets, elements; all IEEE formats", "why_tests_cant": "Arbitrary histories and rounding.", "anchors": ["src/jax_act/core/controller.py:ACT_Controller._process_probabilities", "src/jax_act/core/controller.py:ACT_Controller.residuals", "src/jax_act/core/controller.py:ACT_Controller.reset_batches"]}
{"id": "C70", "title": "Accumulators do not interfere", "statement": "Dropping some accumulators from a controller, and the updates for them from the calls, changes nothing about the others: for every history whose calls all return, the controller restricted to the kept accumulators is exactly the one that only ever had these accumulators. In particular probabilities, residuals and iteration counts do not depend on any update, and the accumulators may be processed one at a time.", "quantifier": "all arithmetics, controllers, sets of accumulator names, call histories", "why_tests_cant": "Relates executions of arbitrary length over arbitrary sets of accumulators.", "anchors": ["src/jax_act/core/controller.py:ACT_Controller.iterate_act", "src/jax_act/core/controller.py:ACT_Controller.cache_update", "src/jax_act/core/controller.py:ACT_Controller.reset_batches"]}
{"id": "C71", "title": "execute_act computes adaptive computation time", "statement": "For a layer that does what the class docstring shows (cache an update for each accumulator, then iterate with halting probabilities, both computed from the user state), execute_act returns whenever the updates fit; it stops at the first iteration after which every element has halted, or at max_iterations; and for every element the probability, residual and iteration count are those of Graves' algorithm on the halting probabilities of these iterations, and every number of every accumulator is its default plus the weighted sum of the updates of these iterations.", "quantifier": "all docstring layers (arbitrary user state transition, update and halting functions), initial states, bounds, batch shapes", "why_tests_cant": "Arbitrary user functions and numbers of iterations.", "anchors": ["src/jax_act/layers/act.py:AbstractACTTemplate.execute_act", "src/jax_act/core/controller.py:ACT_Controller.iterate_act"]}
{"id": "C72", "title": "Batching is transparent to execute_act", "statement": "An element gets the same residual, iteration count and accumulators from execute_act whatever the other elements of the batch do, and whatever the batch shape: with the same updates, halting probabilities and max_iterations the results of the element are equal, even when other elements keep the loop running for longer. Running the element alone, with batch shape (), gives the same results. Holds exactly and, without NaN halting probabilities, bit for bit in IEEE arithmetic.", "quantifier": "all pairs of docstring layers, batch shapes, elements and bounds; all IEEE formats", "why_tests_cant": "Relates two executions of arbitrary, different length.", "anchors": ["src/jax_act/layers/act.py:AbstractACTTemplate.execute_act", "src/jax_act/core/controller.py:ACT_Controller.iterate_act", "src/jax_act/core/controller.py:ACT_Controller.is_completely_halted"]}
{"id": "C73", "title": "The course of a call does not depend on array contents", "statement": "Which exception a call raises, if any, and the names, structure, shapes and dtypes of its result depend only on the names, structures, shapes and dtypes involved, never on the contents of arrays, epsilon or the depression constant. So evaluation without contents (jax.eval_shape, tracing by jax.jit) foretells every history. This covers cache_update, iterate_act, reset_batches and indexing; the viewer's masks and transformations; the builder's definitions; and the setters of an editor in silent mode.", "quantifier": "all pairs of controllers, calls and histories alike in all but contents, in any two arithmetics", "why_tests_cant": "Relates two executions on unrelated data; tests see single executions.", "anchors": ["src/jax_act/core/controller.py:ACT_Controller.cache_update", "src/jax_act/core/controller.py:ACT_Controller.iterate_act", "src/jax_act/core/controller.py:ACT_Controller.reset_batches", "src/jax_act/core/viewer.py:ACTViewer.transform", "src/jax_act/core/builder.py:ControllerBuilder.define_accumulator_directly", "src/jax_act/core/tensoreditor.py:TensorEditor"]}
{"id": "C74", "title": "execute_act fails at once or never", "statement": "If the methods of a layer do not look at array contents, then execute_act raises before the first iteration or not at all, whatever the data, the depression constant and max_iterations; otherwise it returns a controller and a state whose structure, shapes and dtypes do not depend on the data or on the number of iterations. Layers written as in the docstring have this property if the user's functions do.", "quantifier": "all layers, initial states, bounds; any two arithmetics", "why_tests_cant": "Quantifies over user code and all data.", "anchors": ["src/jax_act/layers/act.py:AbstractACTTemplate.execute_act", "src/jax_act/layers/act.py:AbstractACTTemplate._while_loop_adapter_factory", "src/jax_act/layers/core.py:ContractValidationWrapper.run_iteration"]}
{"id": "C75", "title": "Results are locally affine in the halting probabilities", "statement": "Take an element that receives halting probabilities through any history without resets, no running total of which lies exactly on the threshold 1-epsilon. Then small enough changes of its halting probabilities leave its halting and its iteration count as they are and change the rest exactly linearly: halted at step N, the residual changes by minus the sum of the changes of steps 1..N-1, every accumulator entry by the sum of change times (update of that step minus update of step N), and the halting probability of step N itself has no effect; not halted, the probability changes by the sum and each entry by the sum of change times update. (These are the gradients training relies on; exact arithmetic.) On the threshold the residual jumps.", "quantifier": "all controllers, histories without resets, elements, small changes", "why_tests_cant": "Quantifies over all data and all sufficiently small changes.", "anchors": ["src/jax_act/core/controller.py:ACT_Controller.iterate_act", "src/jax_act/core/controller.py:ACT_Controller.cache_update", "src/jax_act/core/controller.py:ACT_Controller._process_probabilities", "src/jax_act/core/controller.py:ACT_Controller._update_accumulator"]}
{"id": "C76", "title": "Updates do not influence halting, and outputs are linear in them", "statement": "Two controllers with equal statistics and settings, put through the same calls except for the contents of the cached updates, have identical probabilities, residuals, iteration counts and halting flags after every history, bit for bit, also where calls raise. In exact arithmetic the accumulated change from the default is linear in the updates: mixing the updates of two histories mixes their results.", "quantifier": "all controllers, all histories, any arithmetic (linearity: exact)", "why_tests_cant": "Two-run property over unbounded histories.", "anchors": ["src/jax_act/core/controller.py:ACT_Controller.iterate_act", "src/jax_act/core/controller.py:ACT_Controller.reset_batches", "src/jax_act/core/controller.py:ACT_Controller.cache_update"]}
{"id": "C77", "title": "Data handed in or out is not aliased", "statement": "What a controller or builder contains is determined by the calls made on it: changing a list or dict after passing it to define_accumulator_directly, cache_update or an editor setter, or one obtained by indexing the controller, does not change the controller. (Violated: the containers are stored and handed out as they are. It holds for programs that write only to containers the controller does not hold, and for what iterate_act, reset_batches and transform produce.)", "quantifier": "all controllers, all pytrees of any depth as linked mutable objects, all programs mixing calls with creation and modification of containers", "why_tests_cant": "Sharing between objects over unbounded programs and object graphs.", "anchors": ["src/jax_act/core/builder.py:ControllerBuilder._define", "src/jax_act/core/builder.py:ControllerBuilder._delete_definition", "src/jax_act/core/controller.py:ACT_Controller.cache_update", "src/jax_act/core/controller.py:ACT_Controller.iterate_act", "src/jax_act/core/controller.py:ACT_Controller.reset_batches", "src/jax_act/core/controller.py:ACT_Controller.__getitem__", "src/jax_act/core/viewer.py:ACTViewer.transform", "src/jax_act/core/tensoreditor.py:TensorEditor.set_accumulator", "src/jax_act/core/tensoreditor.py:TensorEditor.set_defaults", "src/jax_act/core/tensoreditor.py:TensorEditor.set_updates"]}
{"id": "C78", "title": "Compiled and eager execution agree", "statement": "Running the same calls on a controller inside jit or while_loop (as execute_act does) gives the same halting decisions, exceptions and arrays as running them directly. (Violated: epsilon and the depression constant are Python floats and become float32 scalars inside, so 1 - epsilon is rounded differently; with float32 arrays and epsilon 0.09 an element that receives 0.91 halts in one and not in the other. It holds for every epsilon whose threshold survives the rounding, and otherwise compiled code does what eager code does with a slightly different epsilon.)", "quantifier": "all controllers, call histories and layers, all binary floating point formats of the arrays, all epsilons in [0, 1]", "why_tests_cant": "Whether rounding changes a comparison depends on the setting and on every value reached in unbounded histories.", "anchors": ["src/jax_act/core/controller.py:ACT_Controller.halt_threshold", "src/jax_act/core/controller.py:ACT_Controller.halted_batches", "src/jax_act/core/controller.py:ACT_Controller._process_probabilities", "src/jax_act/core/states.py:ACTStates", "src/jax_act/layers/act.py:AbstractACTTemplate.execute_act"]}
{"id": "C79", "title": "A controller is a transparent pytree", "statement": "The leaves of a controller are exactly its arrays (the statistics and every array in its defaults, accumulators and updates), its two float settings and its error mode. jax.tree_map over a controller succeeds for every function and gives the controller with the same names and structures whose data are the images. jax.tree_map over two controllers combines them name by name and place by place, also if their accumulators were defined in different orders, and is a ValueError exactly if they differ in names, structures or the presence of an error mode; these are the differences that tree structures record (shapes, dtypes and values are not). Rebuilding from a wrong number of leaves is a ValueError.", "quantifier": "all controllers, all functions of leaves, pytrees of any depth", "why_tests_cant": "Quantifies over all functions and all pytrees.", "anchors": ["src/jax_act/core/controller.py:ACT_Controller", "src/jax_act/core/states.py:ACTStates", "src/jax_act/core/controller.py:flatten_controller", "src/jax_act/core/controller.py:unflatten_controller"]}
{"id": "C80", "title": "Accumulator names are labels", "statement": "Renaming the accumulators of all objects and calls with any function that keeps different names different changes nothing but the names: any program of calls on builders, controllers, viewers, editors and saves raises the same exceptions in the same places and gives the same data under the new names. (Flattening and rebuilding, which orders dictionaries by name, is left out; C38 says what it does.)", "quantifier": "all one-to-one renamings, all programs of API calls on any pool of objects, any arithmetic", "why_tests_cant": "Relates two executions for every renaming and every program.", "anchors": ["src/jax_act/core/controller.py:ACT_Controller", "src/jax_act/core/builder.py:ControllerBuilder", "src/jax_act/core/viewer.py:ACTViewer", "src/jax_act/core/tensoreditor.py:TensorEditor"]}
{"id": "C81", "title": "jit_and_checkify reports the first failed check", "statement": "A function wrapped by jit_and_checkify returns the function's result iff every check it reaches holds; if some check fails and the function comes to its end, the wrapper raises the message of the first failed check; and a Python exception of the function surfaces whatever the checks say. So it agrees with a direct call unless a Python exception follows a failed check. Editors in standard mode validate in the same way.", "quantifier": "all functions, all sequences of checks and outcomes", "why_tests_cant": "Quantifies over all functions and all combinations of failing checks.", "anchors": ["src/jax_act/core/utils.py:jit_and_checkify", "src/jax_act/core/tensoreditor.py:TensorEditor._execute_validation"]}
{"id": "C82", "title": "Statistics in the core dtype, accumulators in a larger dtype", "statement": "When probabilities, residuals, iteration counts and halting values are of one floating point format (core_dtype) and an accumulator and its updates of a larger one, halting and all statistics are bit for bit those of a controller kept in the core format alone; accumulators of the core format are computed in it throughout; and an entry of a larger accumulator is the default plus the sum of weight times update up to the roundoff of the larger format, where the weights are the core format's, not negative, and add up to the probability up to the core format's roundoff.", "quantifier": "all pairs of IEEE-754 formats, all batch and accumulator shapes, all histories (the error bound: without resets and NaN), all settings in range", "why_tests_cant": "Rounding errors of two formats over unbounded histories.", "anchors": ["src/jax_act/core/builder.py:ControllerBuilder.new_builder", "src/jax_act/core/controller.py:ACT_Controller._update_accumulator", "src/jax_act/core/controller.py:ACT_Controller.iterate_act"]}
{"id": "C83", "title": "Formatted error messages keep their text and their layout", "statement": "format_error_message(message, context) consists of the lines of the context moved left together as far as possible, followed by the lines of the message moved together so that their common indentation is four spaces; blank lines become empty; every other character is kept, in order. Formatting a formatted message again only moves its lines together.", "quantifier": "all texts (spaces, tabs and newlines as white space)", "why_tests_cant": "Quantifies over all texts and indentations.", "anchors": ["src/jax_act/core/utils.py:format_error_message"]}
{"id": "C84", "title": "Dataclass pytrees survive compilation", "statement": "An accumulator may be any pytree, so also an instance of a registered dataclass (flax.struct or chex), and it stays one: passing a controller through jit or a loop, as execute_act does, gives the same controller, and updates that are instances are added field by field. (Violated: flattening a state uses dataclasses.asdict, which turns instances into dicts. The class is lost at the first boundary, and because the fields of a dict are ordered by name and those of an instance as declared, the updates of the next iteration are silently added to other fields unless the declaration happens to be in alphabetical order. It holds exactly for controllers without dataclass instances.)", "quantifier": "all controllers and pytrees, all classes, field names and declaration orders, any arithmetic", "why_tests_cant": "Quantifies over all classes and pytrees, and the damage depends on the declaration order of the fields.", "anchors": ["src/jax_act/core/states.py:state_flatten", "src/jax_act/core/states.py:state_unflatten", "src/jax_act/core/controller.py:flatten_controller", "src/jax_act/core/controller.py:unflatten_controller", "src/jax_act/core/controller.py:ACT_Controller.cache_update", "src/jax_act/core/controller.py:ACT_Controller.iterate_act"]}
{"id": "C85", "title": "Error messages say what is wrong", "statement": "The text of an error states a fact about the call. A setter of an editor in the mode 'standard' raises with the first of its complaints that is true, naming the old and new shape or dtype and, for pytrees, the number of the leaf; no true complaint, no error. Defining an accumulator names the first leaf that is wrong and what it should have been. Caching and iterating name the accumulator: an iteration with halting probabilities of the right shape and dtype names the first accumulator, in the order of definition, whose update is missing or does not fit. Different setters, complaints, leaves, shapes or dtypes give different texts, and apart from the text the outcome is that of the other properties.", "quantifier": "all states, arguments, pytrees, names without newlines and any arithmetic", "why_tests_cant": "Quantifies over all arguments: which of several true complaints is reported, and that no two read the same, cannot be covered by samples.", "anchors": ["src/jax_act/core/tensoreditor.py:TensorEditor.set_probabilities", "src/jax_act/core/tensoreditor.py:TensorEditor.set_residuals", "src/jax_act/core/tensoreditor.py:TensorEditor.set_iterations", "src/jax_act/core/tensoreditor.py:TensorEditor.set_epsilon", "src/jax_act/core/tensoreditor.py:TensorEditor.set_accumulator", "src/jax_act/core/tensoreditor.py:TensorEditor.set_defaults", "src/jax_act/core/tensoreditor.py:TensorEditor.set_updates", "src/jax_act/core/builder.py:ControllerBuilder.define_accumulator_directly", "src/jax_act/core/builder.py:ControllerBuilder.define_accumulator_by_shape", "src/jax_act/core/builder.py:ControllerBuilder.new_builder", "src/jax_act/core/controller.py:ACT_Controller.cache_update", "src/jax_act/core/controller.py:ACT_Controller.iterate_act", "src/jax_act/core/controller.py:ACT_Controller.reset_batches", "src/jax_act/core/utils.py:format_error_message"]}
{"id": "C86", "title": "execute_act in IEEE arithmetic, run by Python or compiled", "statement": "For a layer of the documented form, execute_act in binary floating point stops at the bound or as soon as every batch element has halted, and not sooner. Each element then has a cumulative probability in [0,1] equal to the sum of its weights up to 2^-prec per iteration, exactly 1 if it halted; a count of the iterations it ran; a residual between 0 and 1; and accumulators equal to default plus the sum of weight times update up to an explicit rounding bound. The same holds compiled, with the thresholds and depression constant that compiled code uses, which differ from the documented ones by at most 2^-24 + 2^(-prec-1). With halting values of at least 2^-prec after depression, and an epsilon that is not lost in the rounding of the thresholds (a few units of roundoff), both stop by themselves within 2^(prec+1) iterations.", "quantifier": "all binary formats of at least two bits, documented-form layers, initial states, bounds, batch shapes and accumulators", "why_tests_cant": "Quantifies over all layers, iteration counts and floating-point values, in two execution modes whose thresholds differ in the last place.", "anchors": ["src/jax_act/layers/act.py:execute_act", "src/jax_act/layers/act.py:run_layer_adapter", "src/jax_act/core/controller.py:ACT_Controller.iterate_act", "src/jax_act/core/controller.py:ACT_Controller._process_probabilities", "src/jax_act/core/controller.py:ACT_Controller._update_accumulator", "src/jax_act/core/controller.py:ACT_Controller.halted_batches"]}
{"id": "C87", "title": "What are_pytrees_equal accepts as equal numbers", "statement": "For pytrees of one structure whose tensors have equal shapes place by place, are_pytrees_equal does not raise. With use_allclose it returns True exactly when in every tensor every entry x is within 10^-8 + 10^-5 |y| of its counterpart y in the second tree; without it, exactly when the entries are equal. In binary floating point NaN equals nothing, infinities only themselves, equal numbers are always accepted, and the tolerance is that of exact arithmetic up to explicit rounding errors, with both constants rounded to the format. A tree equals itself exactly when it holds no NaN. Because the tolerance is relative to the second tree, the comparison with use_allclose is not symmetric.", "quantifier": "all pytrees of equal structure and shapes, exact numbers and all binary formats of at least two bits", "why_tests_cant": "Quantifies over all pytrees and all floating-point values, with subnormal, infinite and NaN entries and overflow in the intermediate results.", "anchors": ["src/jax_act/core/utils.py:are_pytrees_equal"]}
{"id": "C88", "title": "Threads may share objects; an interrupted call leaves no trace", "statement": "Threads may call any methods on shared controllers, viewers, builders, editors and saved states at the same time, without locks. However their accesses to objects interleave, and wherever a call is broken off for good (its thread killed, KeyboardInterrupt), the calls that end raise the exceptions and return the objects they would if called one after another in the order in which they end; every object a thread holds has at every moment the contents it had when it was returned; calls in progress and calls broken off have no effect that can be observed. Every call ends after finitely many accesses of its own, and never waits for another.", "quantifier": "all numbers of threads, all calls, all interleavings of accesses to dictionaries, state objects and instances, all points of interruption, all initial heaps without dangling references", "why_tests_cant": "Tests run a few schedules; an access between a copy and the write to the copy, or an interruption there, is practically never hit.", "anchors": ["src/jax_act/core/controller.py:ACT_Controller", "src/jax_act/core/builder.py:ControllerBuilder", "src/jax_act/core/viewer.py:ACTViewer", "src/jax_act/core/tensoreditor.py:TensorEditor", "src/jax_act/core/immutable.py:Immutable"]}
{"id": "C89", "title": "Executions can be stopped and continued", "statement": "Stopping execute_act at max_iterations loses nothing: executing again with the remaining number of iterations, from the controller and user state returned, gives the controller and user state of one execution with the full number, and raises nothing. Once all elements have halted, a larger max_iterations gives the same result. With layers in the style of the docstring an element that has halted when an execution stops has the same residual, iteration count and accumulators in every execution with a larger bound, and stays halted. This holds eagerly and compiled, in exact and in IEEE arithmetic.", "quantifier": "all layers that can be compiled (the second statement: all layers), all controllers, user states, bounds 0 <= n <= m, both settings of check_for_errors", "why_tests_cant": "Tests compare a few bounds; the claim is about every split of every execution, including the additional tracing of the body and the rebuilt carry.", "anchors": ["src/jax_act/layers/act.py:AbstractACTTemplate.execute_act", "src/jax_act/layers/act.py:ACTMetaData", "src/jax_act/layers/core.py:ContractValidationWrapper", "src/jax_act/core/controller.py:ACT_Controller.iterate_act"]}
{"id": "C90", "title": "Everything a user can get hold of is consistent and in range", "statement": "Start with nothing and call anything on anything, in any order, with any number of calls that fail: every builder, controller, viewer, editor and saved state obtained is consistent. All shapes, dtypes and names fit, accumulators, defaults and updates correspond, builders have not started. Probabilities and residuals are between 0 and 1, iteration counts, epsilon and depression constant in their ranges, in exact and in IEEE arithmetic; this also with any interleaving of threads. Building, saving, loading, making a viewer or editor and passing through jit therefore never fail. What is asked of the user: arguments are arrays, functions given to transform keep shape, dtype and range, editors are not silenced, no None is exchanged for a tensor with an editor, and no NaN is handed in.", "quantifier": "all histories of calls on all objects, including calls that raise, all arguments with the provisos stated, all interleavings of threads, any arithmetic (ranges: exact numbers and all binary formats of at least two bits)", "why_tests_cant": "Quantifies over all histories through five classes; a test follows a few paths.", "anchors": ["src/jax_act/core/controller.py:ACT_Controller", "src/jax_act/core/builder.py:ControllerBuilder", "src/jax_act/core/viewer.py:ACTViewer", "src/jax_act/core/tensoreditor.py:TensorEditor", "src/jax_act/core/states.py:ACTStates"]}
{"id": "C91", "title": "Edits do not depend on each other; checkpoints can be restored", "statement": "Through an editor in the mode 'standard', whether a setter call is accepted, and what it raises, does not depend on the setter calls before it. The last accepted call about something (a statistic, epsilon, or the accumulator, default or update of one name) decides its value; everything else stays, including the depression constant, the error mode and the names, which no setter is about. The order of calls about different things does not matter, and setting something to its own value changes nothing. One setter call for each thing that can be set, in any order, turns an editor on a controller of the same kind (shapes, dtypes, names, structures, depression constant) into one that holds any saved state whose numbers are in range and whose pending updates fit; in particular whatever a controller has computed can be restored into the fresh controller.", "quantifier": "all well-formed states, all sequences of setter calls with any arguments made of arrays (that do not exchange None and tensors, C34), all permutations, any arithmetic", "why_tests_cant": "Quantifies over all sequences and orders of edits, accepted and refused, and all states.", "anchors": ["src/jax_act/core/tensoreditor.py:TensorEditor.set_probabilities", "src/jax_act/core/tensoreditor.py:TensorEditor.set_residuals", "src/jax_act/core/tensoreditor.py:TensorEditor.set_iterations", "src/jax_act/core/tensoreditor.py:TensorEditor.set_epsilon", "src/jax_act/core/tensoreditor.py:TensorEditor.set_accumulator", "src/jax_act/core/tensoreditor.py:TensorEditor.set_defaults", "src/jax_act/core/tensoreditor.py:TensorEditor.set_updates", "src/jax_act/core/states.py:ACTStates.replace"]}
{"id": "C92", "title": "The contract checks name the rule that a layer broke", "statement": "When execute_act is asked to check for errors, an error raised after make_controller or run_iteration states a fact about what the layer returned: not a controller (with its class), no accumulators, not a tuple (with its class), a tuple of another length than two (with the length), the same controller as before, all accumulators filled but never committed, or some updates left waiting. The first of these that holds is the one told, with its exception class; nothing that holds, no error. No two of them read the same, and apart from the text the outcomes are those of the other properties.", "quantifier": "all layers, returned objects, controllers, user states, class names without newlines and any arithmetic", "why_tests_cant": "Quantifies over all layers and everything they may return; which of several broken rules is told cannot be covered by samples.", "anchors": ["src/jax_act/layers/core.py:ContractValidationWrapper", "src/jax_act/layers/core.py:ContractValidationWrapper.make_controller", "src/jax_act/layers/core.py:ContractValidationWrapper.run_iteration", "src/jax_act/core/utils.py:format_error_message"]}
{"id": "C93", "title": "Errors of viewers, operators and pytrees say what is wrong", "statement": "ACTViewer.transform raises exactly when the user's function fails on some tensor, with a text that says so; mask_data names the shape of the mask and the batch shape; the editors list the error modes. A binary operator on pytrees says either that the operands do not fit, exactly when they do not, or the number of the first leaf on which the operator fails. Spreading one pytree over another names the first thing in the way: a branch over a tensor, two classes, two numbers of children, two keys, or the number of the first child inside which there is something in the way, each exactly when it is so. Different reasons read differently.", "quantifier": "all states, functions, masks, modes, operators, pytrees with names without newlines and any arithmetic", "why_tests_cant": "Quantifies over all pytrees and functions: which of several obstacles is named, and that no two read the same, cannot be covered by samples.", "anchors": ["src/jax_act/core/viewer.py:ACTViewer.transform", "src/jax_act/core/viewer.py:ACTViewer.mask_data", "src/jax_act/core/tensoreditor.py:edit_save", "src/jax_act/core/tensoreditor.py:edit_controller", "src/jax_act/core/utils.py:broadcast_pytree_shape", "src/jax_act/core/utils.py:execute_binary_operator", "src/jax_act/core/utils.py:format_error_message"]}
{"id": "C94", "title": "Differentiating does not change what is computed", "statement": "Evaluating the controller, its views, editors, pytree comparisons and execute_act under jax.jvp, with any tangents, gives in the values exactly what they give without: the same calls raise the same exceptions, the same elements halt in the same steps, setters accept the same values, what compares equal is the same, execute_act makes the same iterations and returns the same values. Where no tangents go in, none come out.", "quantifier": "all controllers, histories, layers, bounds, and all tangents of all numbers (settings, accumulators, updates, halting probabilities, user states), exact arithmetic", "why_tests_cant": "Quantifies over all tangents and histories; a test differentiates at a few points.", "anchors": ["src/jax_act/core/controller.py:ACT_Controller.iterate_act", "src/jax_act/core/controller.py:ACT_Controller.cache_update", "src/jax_act/core/controller.py:ACT_Controller.reset_batches", "src/jax_act/core/viewer.py:ACTViewer.unhalted_only", "src/jax_act/layers/act.py:AbstractACTTemplate.execute_act"]}
{"id": "C95", "title": "The tangents are the derivatives", "statement": "When the numbers given to a controller depend on a parameter (weights of a layer), what jax.jvp returns is the derivative with respect to the parameter: for each element that is never exactly at a corner (a halting value of 0 or 1 that moves, a cumulative probability exactly at the threshold), all its probabilities, residuals, iteration counts and accumulator entries have the tangents as derivatives, and close by it halts in the same steps. The same for execute_act on layers in the style of the docstring with differentiable parts: the executions for all parameters return, and all numbers of the final controller and user state are differentiable with the tangents of the differentiated execution. At a corner the tangent need not be a derivative.", "quantifier": "all controllers, histories with resets and failing calls, smooth dependence on a parameter, layers with differentiable parts, all bounds, exact arithmetic", "why_tests_cant": "A derivative is a limit: quantifies over all neighbourhoods and error bounds; finite differences in a test show neither.", "anchors": ["src/jax_act/core/controller.py:ACT_Controller.iterate_act", "src/jax_act/core/controller.py:ACT_Controller._process_probabilities", "src/jax_act/core/controller.py:ACT_Controller.reset_batches", "src/jax_act/layers/act.py:AbstractACTTemplate.execute_act"]}
{"id": "C96", "title": "Formulas for the derivatives", "statement": "Without resets the tangent of an accumulator entry is that of its default, plus the tangents of the updates with the weights of adaptive computation time, plus the tangents of the effective halting probabilities times the differences between the updates of their steps and the update of the halting step (times the updates, when not halted). The tangent of the residual is minus the sum of those of the probabilities before the halting step; a halted element has cumulative probability of tangent zero; iteration counts have tangent zero; epsilon's tangent has no influence. The tangents of the results are linear in those of what goes in.", "quantifier": "all controllers, histories without resets, including failing calls, all tangents, batch elements and accumulator entries, exact arithmetic", "why_tests_cant": "Quantifies over all histories, halting steps and tangents.", "anchors": ["src/jax_act/core/controller.py:ACT_Controller.iterate_act", "src/jax_act/core/controller.py:ACT_Controller._process_probabilities", "src/jax_act/core/controller.py:ACT_Controller._update_accumulator"]}
{"id": "C97", "title": "How long a computation takes", "statement": "An element whose halting values all lie between lo and hi halts within m iterations when m steps of depression_constant * lo exceed 1 - epsilon, and does not halt within m iterations when m steps of depression_constant * hi do not; its residual is bounded accordingly. With a steady value h it halts in iteration floor((1 - epsilon) / (depression_constant * h)) + 1. Dividing the depression constant by k makes a steady computation k times as long, up to fewer than k iterations. The loop of execute_act makes that many iterations, unless max_iterations is lower.", "quantifier": "all controllers, histories without resets including failing calls, bounds lo and hi, batch elements, layers in the style of the docstring, exact arithmetic", "why_tests_cant": "Quantifies over all histories, depression constants and numbers of iterations.", "anchors": ["src/jax_act/core/controller.py:ACT_Controller.iterate_act", "src/jax_act/core/controller.py:ACT_Controller._process_probabilities", "src/jax_act/layers/act.py:AbstractACTTemplate.execute_act"]}
{"id": "C98", "title": "What is computed for a finished element is ignored", "statement": "Once an element has halted, whatever the layer goes on computing for it (updates and halting probabilities, also NaN and infinities, as happens when a layer keeps iterating on finished elements) changes neither its result nor the fact that it has halted.", "quantifier": "all controllers, call histories without resets, binary floating point formats, contents of updates and halting tensors including NaN and infinities, layers in the style of the docstring", "why_tests_cant": "Quantifies over all floating point contents and histories; no test feeds NaN to a halted element.", "anchors": ["src/jax_act/core/controller.py:ACT_Controller.iterate_act", "src/jax_act/core/controller.py:ACT_Controller._process_probabilities", "src/jax_act/core/controller.py:ACT_Controller.reset_batches", "src/jax_act/layers/act.py:AbstractACTTemplate.execute_act"]}
{"id": "C99", "title": "An iteration with halting probability zero contributes nothing", "statement": "An iterate_act in which a running element has a halting probability of zero or less leaves the probability, the residual and all accumulator entries of the element as they were, does not halt it, and adds one to its iteration count, whatever its updates.", "quantifier": "all controllers, halting tensors, updates, in exact arithmetic and in all binary floating point formats", "why_tests_cant": "Quantifies over all tensor contents including infinities and NaN.", "anchors": ["src/jax_act/core/controller.py:ACT_Controller.iterate_act", "src/jax_act/core/controller.py:ACT_Controller._update_accumulator"]}
{"id": "C100", "title": "The order of accumulator definitions does not matter", "statement": "Two sequences of builder calls (definitions direct or by shape, redefinitions, deletions) that contain, for every accumulator name, the same calls about that name in the same order, raise the same exceptions at the same calls and build controllers that cannot be told apart: every later history of calls returns the same, and a layer that starts from either computes the same results. What is built for a name depends only on the calls about that name; the last accepted definition is the one that counts.", "quantifier": "all builders, all sequences of builder calls, all interleavings, all later histories and layer executions", "why_tests_cant": "Quantifies over all interleavings of call sequences of any length.", "anchors": ["src/jax_act/core/builder.py:ControllerBuilder.define_accumulator_directly", "src/jax_act/core/builder.py:ControllerBuilder.define_accumulator_by_shape", "src/jax_act/core/builder.py:ControllerBuilder._delete_definition", "src/jax_act/layers/act.py:AbstractACTTemplate.execute_act"]}
{"id": "C101", "title": "A place of the batch can be used for one input after another", "statement": "After a reset_batches that finds an element halted, everything computed for the element is what a new controller would compute: probability, residual, iteration count and accumulators; calls that return would return there too. What was done for the element before, the other elements, and resets that find it running have no influence. So a sequence of inputs, each run until the element has halted and followed by a reset_batches that returns, gives for each input the results of a new controller.", "quantifier": "all controllers, all histories of calls (with resets at any time and failing calls), all elements; exact arithmetic and all binary floating point formats, NaN and infinities included", "why_tests_cant": "Quantifies over all histories of any length and all positions of the resets.", "anchors": ["src/jax_act/core/controller.py:ACT_Controller.reset_batches", "src/jax_act/core/controller.py:ACT_Controller.iterate_act", "src/jax_act/core/controller.py:ACT_Controller.cache_update"]}
{"id": "C102", "title": "Small changes of the inputs make small changes of the results", "statement": "Two computations whose effective halting probabilities differ in total by dh, whose updates lie between lo and hi and differ by at most du, and whose defaults differ by at most dd: once both have halted their results differ by at most dd + du + (dh + epsilon) * (hi - lo), and by at most dd + du + dh * (hi - lo) if they halted in the same iteration. While both are running the difference is at most dd + du + dh * m, m bounding the sizes of the updates. At the threshold the result does jump, by epsilon * (hi - lo).", "quantifier": "all pairs of controllers (same epsilon), histories with resets and failing calls, batch elements, accumulators and entries, and all bounds, exact arithmetic", "why_tests_cant": "A bound over all perturbations; tests perturb a few inputs and do not hit the threshold.", "anchors": ["src/jax_act/core/controller.py:ACT_Controller.iterate_act", "src/jax_act/core/controller.py:ACT_Controller._process_probabilities", "src/jax_act/core/controller.py:ACT_Controller._update_accumulator"]}
{"id": "C103", "title": "Larger halting probabilities cost no more", "statement": "The ponder cost of a halted element, iterations + residual, lies between iterations + epsilon and iterations + 1. If the effective halting probabilities of one element are in every iteration since its reset at most those of another, and the first has halted, so has the other, and its ponder cost is at most that of the first: with as many iterations its residual is at most that of the first, otherwise it took at least one iteration less.", "quantifier": "all pairs of controllers (epsilon of the first at most that of the second), histories with resets and failing calls, batch elements, in exact arithmetic; without resets in every binary format of at least 2 bits, for up to 2^precision iterations and with NaN excluded (the sum of the stored iterations and residual taken exactly)", "why_tests_cant": "Quantifies over all pairs of histories; the two summands move in opposite directions when the halting iteration changes.", "anchors": ["src/jax_act/core/controller.py:ACT_Controller.iterate_act", "src/jax_act/core/controller.py:ACT_Controller._process_probabilities", "src/jax_act/core/controller.py:ACT_Controller.residuals", "src/jax_act/core/controller.py:ACT_Controller.iterations"]}
{"id": "C104", "title": "A call that overwrites an accumulator warns, and no other", "statement": "A builder call issues the warning 'Accumulator and defaults are being overwritten' exactly if it replaces the definition of an accumulator by another. Violated: define_accumulator_directly overwrites without a warning, and define_accumulator_by_shape warns also when it then raises and overwrites nothing. Proved: define_accumulator_by_shape issues it, once, exactly if a definition of the name is in force (an accepted earlier call defined it and no accepted later one deleted it), other calls never do, and nothing else depends on it; if warnings are errors, such a call raises the warning and changes nothing, so definitions by shape never replace a definition, and programs that show no warning do the same as before.", "quantifier": "all sequences of definitions and deletions, accepted or refused, on any builder, all names, shapes and definitions, every arithmetic", "why_tests_cant": "Whether a definition is in force depends on the whole history of accepted and refused calls.", "anchors": ["src/jax_act/core/builder.py:ControllerBuilder.define_accumulator_by_shape", "src/jax_act/core/builder.py:ControllerBuilder.define_accumulator_directly", "src/jax_act/core/builder.py:ControllerBuilder._delete_definition"]}
{"id": "C105", "title": "Arrays have the dtype that was requested", "statement": "The statistics of a controller have the core_dtype given to new_builder (float32 if none is given), and the arrays of an accumulator defined by shape have the dtype given to define_accumulator_by_shape, whatever else is defined and however long the controller is used. Violated in JAX's default mode, where float64 becomes float32 (JAX warns). Proved: exact with 64-bit types enabled; without them exact up to that replacement, and no array the library makes is ever float64.", "quantifier": "both settings of jax_enable_x64, all batch shapes, dtypes, sequences of builder calls (accepted or refused), histories of the controller, every arithmetic", "why_tests_cant": "Quantifies over all dtypes, definitions and histories; the repository's tests use the defaults.", "anchors": ["src/jax_act/core/builder.py:ControllerBuilder.new_builder", "src/jax_act/core/builder.py:ControllerBuilder.define_accumulator_by_shape", "src/jax_act/core/controller.py:ACT_Controller.iterate_act", "src/jax_act/core/controller.py:ACT_Controller.reset_batches"]}
{"id": "C106", "title": "The documented example makes a working controller", "statement": "The example in the documentation of ControllerBuilder (new_builder, two definitions by shape, build) gives a controller with the accumulators 'state' and 'output', to which updates can be cached. Violated: the example does not assign what the definitions return, so for all sizes every call returns, but the controller has no accumulators and cache_update raises ValueError for every name and item; the same after any calls on a builder whose results are not assigned. Proved for the example with the results assigned, for all sizes.", "quantifier": "all batch, state and output sizes, dtypes, fills, epsilon, depression constants, error modes, all sequences of calls whose results are dropped, objects on a heap with sharing, every arithmetic", "why_tests_cant": "Quantifies over all sizes and over all sequences of dropped calls.", "anchors": ["src/jax_act/core/builder.py:ControllerBuilder", "src/jax_act/core/builder.py:ControllerBuilder.define_accumulator_by_shape", "src/jax_act/core/builder.py:ControllerBuilder.build", "src/jax_act/core/controller.py:ACT_Controller.cache_update"]}
{"id": "C107", "title": "Epsilon can be changed during a computation", "statement": "After set_epsilon in the middle of a computation the rule 'a halted element has handed out all of its weights, and its residual is the last of them' still holds. Violated when epsilon is raised: an element that is running with cumulative probability p > 1 - epsilon is from then on halted, with residual 0 and weights that sum to p < 1; nothing but a reset changes its accumulators, and every later iteration reports its cumulative probability as 1. Proved when epsilon is lowered: no element's halting changes, and after any further calls halted elements have cumulative probability 1 and a residual between the new epsilon and 1, running ones residual 0; and in general exactly when no running element has p > 1 - epsilon for the new epsilon.", "quantifier": "all controllers from the builder, all histories before and after the change, all elements, all values of epsilon in (0,1], exact arithmetic (the violation also in IEEE-754 arithmetic)", "why_tests_cant": "Quantifies over all histories before and after the change.", "anchors": ["src/jax_act/core/tensoreditor.py:TensorEditor.set_epsilon", "src/jax_act/core/controller.py:ACT_Controller.iterate_act", "src/jax_act/core/controller.py:ACT_Controller.halted_batches"]}
