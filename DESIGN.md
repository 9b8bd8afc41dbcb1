# Formal model of jax_act_controller in Rocq (Coq 8.16.1)

## 1. Shape of the model

The repository is a pure, immutable state machine around JAX tensors. The model is a set of total,
computable Gallina functions that mirror the Python functions branch by branch; Python exceptions are
values (`res A := Ok a | Err e`). Every definition of a model file cites the file and lines it models.

### Model files (rocq/theories)

| file | models |
|---|---|
| `Base.v` | exceptions, results, Python dicts with insertion order |
| `PyTree.v` | JAX pytrees: tuple / list / dict / namedtuple / None nodes, flatten, unflatten, structure |
| `Tensor.v` | row-major tensors, numpy broadcasting, `lax.select`, `tensor[..., None]` |
| `Num.v` | the arithmetic (a record of operations without laws), dtypes and promotion, arrays; the exact instance over canonical rationals (`QcNum`) |
| `FloatNum.v` | the IEEE-754 instance (Flocq `binary_float`, any format, NaN and infinities included); Python floats are binary64 |
| `Utils.v` | `core/utils.py` |
| `States.v` | `core/states.py` (fields, `replace`, validators, flatten/unflatten) |
| `Controller.v` | `core/controller.py` |
| `Builder.v` | `core/builder.py` (and the forwarding `new_builder` of `layers/core.py`) |
| `Viewer.v` | `core/viewer.py` |
| `Editor.v` | `core/tensoreditor.py` |
| `Layers.v` | `layers/core.py`, `layers/act.py`, `frameworks/flax.py` (lazy set-up), `lax.while_loop` |
| `Heap.v` | `core/immutable.py`; all methods again, with state objects, instances and the three dictionaries as mutable objects on a heap |
| `Jit.v` | what a controller becomes inside `jit` and `while_loop` in the 32 bit mode: traced float32 scalars, `execute_act` with compiled iterations |
| `Mixed.v` | the arithmetic of a controller whose core dtype and accumulator dtypes differ: JAX's promotion to the larger of two formats |
| `Text.v` | `format_error_message` (`core/utils.py:13-25`) with Python's `textwrap.dedent` and `textwrap.indent` written out |
| `PyStr.v` | Python's `str` of ints, shapes and dtypes |
| `Messages.v` | the methods of `core/tensoreditor.py`, `core/builder.py` and `core/controller.py` that raise, once more, with the texts of their errors |
| `Messages2.v` | the same for the contract checks of `layers/core.py`, `core/viewer.py`, the modes of the editors, and the pytree functions and operators of `core/utils.py` |
| `Warnings.v` | the warning of `define_accumulator_by_shape` (`core/builder.py:355-356`), shown or, under Python's warning filter "error", raised |
| `Precision.v` | what becomes of requested dtypes when JAX has no 64-bit types (`jax_enable_x64` off, the default) |
| `Dual.v` | forward-mode differentiation (`jax.jvp`): numbers that carry a tangent, with the JVP rules of the operations the code uses |
| `Dual2.v` | the same with two tangents at once, to state that tangents are linear (C96) |
| `Dataclass.v` | what `dataclasses.asdict` in `state_flatten` (`core/states.py:182-192`) does to registered dataclass instances inside pytrees |
| `Checkify.v` | `jit_and_checkify` (`core/utils.py:27-41`) and `_execute_validation` (`core/tensoreditor.py:280-299`) on functions given by their checks and their end |
| `Refs.v` | the methods that receive, hold or make pytrees again, with the lists and dicts inside pytrees as mutable objects on a heap, self-containing ones included |

### Specification files (no model code, no proofs of properties)

| file | content |
|---|---|
| `Spec.v` | Graves' adaptive computation time for one batch element, on plain lists of rationals |
| `History.v` | sequences of controller calls (a call that raises changes nothing), what an element received |
| `Wf.v` | well-formed controllers; the arithmetic expression each element of each tensor receives |
| `ScalarSpec.v` | adaptive computation time on single numbers for any arithmetic, resets included; the program of an element read off a call history |
| `SliceSpec.v` | one batch element in two controllers of different batch shapes; cutting an element out |
| `SubsetSpec.v` | a controller restricted to some of its accumulators |
| `LoopSpec.v` | what a docstring layer hands to one element in its iterations; two layers that treat one element alike |
| `TraceSpec.v` | states, calls and layers alike in all but array contents; evaluation without contents |
| `SlopeSpec.v` | nearby histories, partial derivatives of the results, mixtures of updates |
| `RefsSpec.v` | which containers an object consists of and a controller holds; programs mixing calls with work on containers |
| `JitSpec.v` | thresholds in eager and compiled code, settings that survive, the same layer traced |
| `PytreeSpec.v` | `tree_leaves`, `tree_structure` and `tree_map` over one and two controllers, images, equal layout |
| `RenameSpec.v` | objects and calls with the accumulators renamed |
| `MixedSpec.v` | larger formats, the program of an entry with weights of one format and updates of another |
| `MessagesSpec.v` | what can be wrong with the arguments of a setter or a definition, the order in which it is noticed, the sentences that say so |
| `Messages2Spec.v` | the rules a layer can break, what can keep a pytree from being spread over another, the first leaf an operator fails on, the sentences that say so |
| `IeeeLoopSpec.v` | the inputs of one batch element of a documented-form layer, its weights, and what accurate statistics and accumulators are in a binary format (C86) |
| `DualSpec.v` | derivatives of functions of one rational, quantities that depend on a parameter, corners, differentiable layers, the formulas for tangents (C94, C95, C96) |
| `PaceSpec.v` | halting values between bounds, the number of steps needed to get above a threshold (C97) |
| `TextSpec.v` | lines, blank lines and common indentation of a text |
| `DataclassSpec.v` | pytrees without instances of a class, instances, dictionaries |
| `CheckifySpec.v` | the course of a call that contains checks |
| `ThreadSpec.v` | calls in progress at the same time, access by access; starting, ending and breaking off a call; the common pool of objects (C88) |
| `ResumeSpec.v` | a layer asked to go on from the controller an earlier execution returned (C89) |
| `PoolSpec.v` | what is asked of the arguments of a history of calls, and when an object is consistent (C90) |
| `EditSpec.v` | what a setter call is about, sequences of setter calls, one call for everything that can be set (C91) |
| `OrderSpec.v` | the builder calls about one accumulator; which calls of a sequence raise what (C100) |
| `WarnSpec.v` | when a definition of an accumulator is in force; when a call overwrites one (C104) |
| `StreamSpec.v` | the calls since the last reset that found an element halted; inputs one after another (C101) |
| `StableSpec.v` | how far apart two numbers and two lists are |
| `CompareSpec.v` | entry by entry relations of pytrees, the tolerance over the rationals, what an IEEE comparison with tolerance may decide (C87) |
| `ElementSpec.v`, `FloatSpec.v` | one element of a controller; IEEE vocabulary |
| `BuilderSpec.v`, `ViewerSpec.v`, `UtilsSpec.v`, `EditorSpec.v`, `StateSpec.v`, `LayerSpec.v`, `HeapSpec.v` | the vocabulary of the property theorems of that part |

`*Facts*.v` and `Samples.v` hold the proofs and the concrete cases. `Props*.v` hold only the property
theorems, each followed by `Print Assumptions` and by an `Example C.._case` that shows that a concrete,
non-trivial case meets the hypotheses.

### Arithmetic

The model is parametric in the arithmetic. Theorems that need no laws (freezing, non-interference,
structure preservation, error behaviour, aliasing) are proved for *every* arithmetic, hence also for IEEE
floats with NaN. Theorems that need the laws of the rationals (ACT refinement, convexity, masks) are
proved for exact rationals. What changes under rounding is proved separately for IEEE formats of any
precision and exponent range (`PropsFloat.v`, `PropsFloat2.v`, `PropsRounding.v`).

## 2. Plan and method per property

"Violated" means: the unchanged code does not satisfy the English property. Then a `..._refuted` theorem
proves the failure for a whole class of inputs, a `..._partial` theorem proves the property on the part
of its domain on which it holds, and the manifest says "partial".

| property | what is modelled, how it is proved |
|---|---|
| C01 | invariant over call histories by induction; exact arithmetic |
| C02 | the same invariant for IEEE formats (Sterbenz, rounding lemmas of Flocq) |
| C03, C04 | elementwise characterisation of `iterate_act` for every arithmetic; over histories for exact and IEEE arithmetic |
| C05, C06 | refinement of every call history to `Spec.v`, simulation by induction over the history |
| C07 | from the refinement; IEEE version by the invariant of C02 |
| C08 | relational invariant ("agree on element b"), every arithmetic |
| C09-C13 | characterisations of `cache_update` and `iterate_act`; C13 contains the exact success condition; C12 also bit for bit in IEEE arithmetic |
| C14 | violated: lower precision accumulators |
| C15, C17 | elementwise characterisation of `reset_batches`, exact and IEEE (`MaskFacts.v`: the laws used are multiplication by one and zero) |
| C16 | violated: pytree accumulators |
| C18, C20 | from the refinement and scaling lemmas; a constant of zero also in IEEE arithmetic |
| C19 | violated: negative constants |
| C21 | violated in IEEE arithmetic: NaN epsilon, and every epsilon up to an exact bound (`lost_epsilon`); holds above the bound |
| C22 | violated: constructor call lacks a field |
| C23-C27 | characterisations of the builder; C27 by induction over builder sessions |
| C28, C30, C32 | characterisation of `mask_data` elementwise, in any arithmetic; C30 and C32 for exact and IEEE arithmetic |
| C29 | violated in IEEE arithmetic: NaN and infinity survive the mask |
| C31 | violated: updates rebuilt from the defaults |
| C33, C35, C37 | characterisation of the setters, induction over editing sessions (C33 violated by NaN in IEEE arithmetic) |
| C34, C36 | violated: None confusion, KeyError |
| C38, C40, C57 | round trips; a rebuilt controller simulates the original in every later history |
| C39 | violated: string leaf |
| C41 | heap model: frame theorem and simulation of the heap methods by the pure ones over histories on a pool of objects |
| C42, C62 | heap model; violated (flag assignable, `del` unguarded; internal objects handed out) |
| C43-C47 | `core/utils.py` against independent inductive or pointwise specifications |
| C48, C49 | violated: None equals leaf; structure ignored |
| C50-C52, C54 | the loop and the contract wrapper, for arbitrary user functions |
| C53 | violated: the wrong controller is inspected |
| C55 | refinement plus loop bound |
| C56 | violated: names that do not exist |
| C58 | violated: epsilon 0 accepted; in IEEE arithmetic every epsilon up to `lost_epsilon` |
| C59 | flax lazy set-up, arbitrary user functions |
| C60, C61 | violated in IEEE arithmetic: absorption of small probabilities, saturation of the iteration count |
| C63 | relational invariant between controllers of two batch shapes, and a function that cuts an element out; every arithmetic |
| C64 | simulation of every call history by the scalar program of `ScalarSpec.v`; every arithmetic, bit for bit |
| C65, C69 | invariants of the scalar program of C64; exact and IEEE (monotonicity of rounding) |
| C66, C67, C68 | induction over the scalar program with the error bounds of Flocq's rounding (FLT format, gradual underflow included) |
| C70 | simulation between a controller and its restriction, induction over histories; every arithmetic |
| C71 | `execute_act` of a docstring layer equals a call history (every arithmetic), then C05 |
| C72 | C63 up to the shorter loop, then freezing of halted elements (C03); exact and IEEE |
| C73 | relational: two runs on arrays of equal shape and dtype, contents unrelated, arithmetics different; `NoContents` is the arithmetic with one number (`jax.eval_shape`) |
| C74 | C73 lifted to the loop: all iterates look alike, so the traced body decides; this also removes the dependence on which values `while_loop` traces the body with |
| C75 | closed form of C05 plus stability of the halting step: by induction over the steps there is a distance within which the first crossing of the threshold does not move; the closed form is then affine. A family of histories with a total exactly on the threshold shows that the hypothesis is needed |
| C76 | the statistics are computed from statistics and halting values only, call by call, in any arithmetic; with C73 the same calls return. Linearity from C05: the weights are the same |
| C77 | violated. Calls over a heap of containers simulate the value model as long as the tables read the same; containers are only added and added ones refer to added ones, so reachability from a result is known; induction over programs |
| C78 | violated. Simulation between two arithmetics that share the arrays but not the scalars (`MoveFacts.v`), for any pair of settings whose thresholds compare alike; the rounding of `1 - epsilon` is analysed in Flocq, and for every epsilon one is constructed whose eager threshold is the compiled one |
| C79 | flattening, function application and rebuilding composed; equality of tree structures characterised by names and structures (sorting of keys is canonical); wrong leaf counts by induction over the structure |
| C80 | every method commutes with a one-to-one renaming; induction over programs on a pool of objects, then transferred to the heap by C41 |
| C81 | a call as the list of the checks it reaches and its end; induction over the course |
| C82 | arithmetic on numbers tagged with one of two formats; C64 reduces every entry to a scalar program in which the tags are known, then the facts of C66 and C67 apply, the first in the core format, the second in the larger one (widening is exact) |
| C83 | texts as strings; the loop of `dedent` computes the longest common prefix (invariant), then line by line |
| C84 | violated. `asdict` as a recursive function on trees with a registry of classes; sorting of the fields located by permutation, then the characterisation of `iterate_act` |
| C85 | each setter is a list of checks, each with a complaint; the complaints are ordered by rank, so the first failing check is the least true complaint; texts by C83; injectivity by cancelling prefixes of digits, shapes and dtypes; the loop of `iterate_act` by induction over the names |
| C86 | the loop is a history (C71) of the calls of the layer; per element the scalar program (C64), whose weights and shares have rounding bounds (C67, C68); compiled: the traced history is the Python history under other settings (C78), the threshold enters only through comparisons |
| C87 | entries: C49; the tolerance over the rationals by arithmetic; in a format by the rounding error of each operation (Flocq), with overflow excluded by magnitude |
| C88 | methods are access sequences (Heap.v); a relation of two runs under a renaming of addresses, proved method by method by composition (ThreadFacts, ThreadFacts2); invariant: every call in progress is related to the same call alone, writes only to objects it made, and what has been returned is written to by nobody (ThreadFacts3); then C41's simulation for the call alone |
| C89 | the loop as a function of the iterations left (ResumeFacts): shift of the counter, independence of fuel, splitting by induction; the second tracing succeeds because the layer does not look into arrays (C74) and the rebuilt carry is a fixed point of rebuilding; halted elements by C03, C04 and the history of a docstring layer |
| C90 | induction over histories of calls on value semantics (PoolFacts): every method maps consistent objects to consistent objects; carried to the heap by C41 and to threads by C88. IEEE ranges: the steps of C02 and the checks of builder and editor, which exclude everything but NaN |
| C91 | the checks of a setter look only at shapes, dtypes, names and structures, which accepted edits keep (C37); an accepted edit is a record update (EditFacts); induction over the sequence, states determined by their readable parts |
| C92 | the checks are run one after another; the first that fails is the least broken rule; texts by C83; the commit check looks at the argument (C53), which makes the full claim false |
| C93 | transform by ViewerFacts; operators by pairing leaves (C46), induction over the list of leaves; spreading by the characterisation behind C45 and a case distinction at the root; injectivity line by line |
| C94 | Taking values is a homomorphism from dual numbers to numbers; all of the model is parametric in the numbers (`MoveFacts.v`), so it commutes with every operation, the views and the loop. Constants likewise. `PropsDualEdits.v`: editors and comparisons. |
| C95 | Simulation between the run over pairs and the runs over all parameter values: every quantity has its tangent as derivative, comparisons off the corners agree nearby; by induction on the history, then on the iterations of the loop. A counterexample at a corner. |
| C96 | From C31-style formulas over dual numbers: the tangent parts of the weights computed by induction on the history; scaling is a homomorphism of dual numbers. |
| C97 | From Graves' formulas (C05, C71): running totals of n values between a and b lie between n*a and n*b; steady values make the halting step a floor. |
| C98 | violated in IEEE arithmetic: NaN compares false, so the element runs again; NaN is absorbing under every call. Holds for all other values: the probability of the element stays in the unit interval, induction over histories |
| C99 | one step of `iterate_act`, element by element; violated in IEEE arithmetic by non-finite updates (0 * inf) |
| C100 | a builder call reads and writes only the entry of its own name, so a sequence projects to the calls about a name (induction); states with the same entries are not told apart by any call (C79-style simulation), nor by the loop |
| C101 | a reset that finds an element halted makes its row that of the fresh controller, one that finds it running keeps it (C15); rows that agree stay so under every call (C08); induction over the history. IEEE: what a halted element has gathered is finite and has no minus sign (invariant, NaN included), so zero times it is +0 |
| C102 | C05 reduces a result to a weighted sum. By induction on the iterations, with the lead of one cumulative probability over the other as potential (`StableFacts.v: stable_gen`), the mass that moves between updates is at most dh, plus epsilon if the halting steps differ. The jump by a family of histories. |
| C103 | By C05 iterations and residual are those of the formulas; larger probabilities reach the threshold no later, with a total no smaller (`halting_step_earlier`). If the iterations differ the residual (at most 1, C69) is outweighed by the iteration saved. In IEEE formats an invariant of the two scalar programs run side by side (`costs`, `PropsPonderFloat.v`): iterations are exact integers up to 2^prec and rounding is monotone. |
| C104 | violated both ways (`C104_refuted`). Which names are defined after a sequence of calls, by induction from its end (`in_force_iff`); with warnings as errors the other definitions go through unchanged. |
| C105 | violated in JAX's default mode. Definitions by shape determine all dtypes (C26), other builder calls leave the entry alone (C100), histories keep dtypes (C11); an invariant on all dtypes of a state shows that there is never a float64 array. |
| C106 | violated: by C41 no call changes the builder it is called on, so what `build()` returns does not depend on calls whose results are dropped; computed on values (C41_sharing_is_invisible) for all sizes. |
| C107 | violated when epsilon is raised: the threshold drops below the cumulative probability of a running element, which then is frozen (C03, C04 from the edited state) with residual 0. Lowered: the invariant of C69 for the smaller epsilon, by induction over the calls after the edit. In general the rule survives exactly when no running element is above the new threshold. In IEEE formats: from C03 and C04 there. |

## 3. Trusted base

* Coq's kernel (8.16.1), and the reading of the theorem statements with the specification files.
* That the model files say what the Python code does (section 4 lists the simplifications).
* Libraries: Coq's standard library; Flocq 4.1 only in `CompareFacts.v`, `CompareSpec.v`, `FloatFacts.v`, `FloatFacts2.v`, `FloatFacts3.v`, `FloatFacts4.v`, `FloatFacts5.v`, `FloatFacts6.v`, `FloatNum.v`, `FloatSpec.v`, `IeeeLoopFacts.v`, `IeeeLoopFacts2.v`, `IeeeLoopSpec.v`, `Jit.v`, `JitFacts.v`, `JitSpec.v`, `Mixed.v`, `MixedFacts.v`, `MixedSpec.v`, `PropsCompare.v`, `PropsEditsFloat.v`, `PropsFloat.v`, `PropsFloat2.v`, `PropsIeeeLoop.v`, `PropsJit.v`, `PropsLoopFloat.v`, `PropsMixed.v`, `PropsEpsilonFloat.v`, `PropsPonderFloat.v`, `PropsNan.v`, `PropsPoolFloat.v`, `PropsResumeFloat.v`, `PropsRounding.v`, `PropsStreamFloat.v`, `PropsZero.v`. No axiom of our own, no kernel check switched off, no plugin.
* Axioms: all theorems outside the IEEE part are closed under the global context. The IEEE theorems rest
  on the axioms of the standard library's classical reals (through Flocq's `B2R`):
  `ClassicalDedekindReals.sig_forall_dec`, `ClassicalDedekindReals.sig_not_dec`,
  `FunctionalExtensionality.functional_extensionality_dep`, `Classical_Prop.classic`.

What `Print Assumptions` lists for each theorem (generated by `tools/gen_assumptions.py`):

<!-- assumptions begin -->
* **Closed under the global context** (262 theorems)
  * PropsBuilder: `C22_refuted`, `C22_partial`, `C23_new_builder_rejects`, `C23_new_builder_rejects_any_arithmetic`, `C24_definitions_checked`, `C25_definition_local`, `C25_deletion_local`, `C26_definition_by_shape`, `C26_bad_shapes`, `C27_builders_make_well_formed_controllers`
  * PropsCheckify: `C81_wrapper`, `C81_like_direct`, `C81_editor_validation`
  * PropsCompare: `C87_exact`, `C87_not_symmetric`
  * PropsController: `C01_probability_invariant`, `C03_halted_elements_frozen`, `C03_halted_elements_frozen_forever`, `C04_halting_is_permanent`, `C05_controller_computes_graves_act`, `C05_every_element_is_covered`, `C06_halted_output_is_convex`, `C07_residual_and_iterations`, `C08_batch_elements_independent`, `C08_iterate_same_outcome`, `C09_commits_exactly_once`, `C09_one_update_per_iteration`, `C10_cache_update_precise`, `C10_any_caching_order`, `C10_flags_say_what_is_cached`, `C11_structure_is_stable`, `C12_clamping`, `C13_iterate_succeeds`, `C14_refuted`, `C14_partial`, `C15_reset_exact`, `C16_refuted`, `C16_partial`, `C17_reset_guarded`, `C17_reset_idempotent`, `C18_depression_scales`, `C18_depression_zero`, `C19_refuted`, `C19_refuted_unhalts`, `C19_partial`, `C20_enough_mass_halts`
  * PropsDataclass: `C84_partial_exactly_without_dataclasses`, `C84_refuted`, `C84_partial_eager`, `C84_refuted_wrong_field`
  * PropsDocExample: `C106_results_not_assigned_are_lost`, `C106_refuted`, `C106_partial`
  * PropsDual: `C94_values_are_unchanged`, `C94_execute_act`, `C94_documented_layers`, `C94_constants`, `C95_tangents_are_derivatives`, `C95_along_curves`, `C95_execute_act`, `C95_corners_are_needed`, `C96_tangents`, `C96_scaling`, `C96_superposition`
  * PropsDualEdits: `C94_edits`, `C94_comparisons`
  * PropsEditor: `C33_setters_any_arithmetic`, `C33_setters_exact`, `C34_refuted`, `C34_partial`, `C34_unknown_name`, `C34_none_safe_without_none`, `C35_silence`, `C35_modes`, `C36_refuted`, `C36_partial`, `C37_sessions_keep_invariant`, `C37_sessions_stay_in_range`, `C58_refuted`, `C58_partial`
  * PropsEdits: `C91_verdict_is_independent`, `C91_last_edit_wins`, `C91_nothing_else_changes`, `C91_order_does_not_matter`, `C91_rewriting_changes_nothing`, `C91_checkpoints_can_be_restored`, `C91_runs_can_be_restored`
  * PropsEpsilon: `C107_refuted`, `C107_setting_it_back_is_no_repair`, `C107_partial`, `C107_exactly_when`
  * PropsHeap: `C41_nothing_modified`, `C41_contents_kept`, `C41_sharing_is_invisible`, `C42_refuted`, `C42_refuted_delete`, `C42_partial`, `C42_partial_assignment`, `C42_partial_deletion`, `C62_refuted`, `C62_refuted_save`, `C62_partial`, `C57_replace_objects`
  * PropsLayers: `C50_at_most_max_iterations`, `C50_loop_terminates`, `C51_result_of_documented_loop`, `C51_documented_loop_is_executed`, `C52_contract_checked`, `C52_exceptions_and_no_checks`, `C52_unchecked`, `C52_unchecked_make`, `C53_refuted`, `C53_partial`, `C54_make_controller_checked`, `C54_execute_act_checks`, `C55_probability_floor_halts`, `C59_lazy_setup_changes_nothing`
  * PropsLoop: `C71_execute_act_is_a_history`, `C71_execute_act_returns`, `C71_execute_act_computes_act`, `C72_execution_is_batching_transparent`, `C72_other_bound_if_halted`, `C72_element_alone`
  * PropsMessages: `C85_same_outcomes`, `C85_setters`, `C85_setter_texts_differ`, `C85_definitions`, `C85_new_builder`, `C85_caching`, `C85_iteration`, `C85_reset`
  * PropsMessages2: `C92_same_outcomes`, `C92_make_controller`, `C92_run_iteration`, `C92_refuted`, `C92_partial`, `C92_texts_differ`, `C93_same_outcomes`, `C93_viewers`, `C93_operators`, `C93_broadcasting`, `C93_refuted`, `C93_partial`, `C93_broadcasting_texts_differ`
  * PropsMono: `C65_larger_probabilities_halt_no_later`, `C69_residual_at_least_epsilon`
  * PropsOrder: `C100_any_order`, `C100_definitions_are_independent`, `C100_last_definition_wins`, `C100_same_behaviour`, `C100_same_execution`
  * PropsPace: `C97_bounds`, `C97_steady`, `C97_number_of_steps`, `C97_depression_lengthens`, `C97_execute_act`, `C97_execute_act_steady`
  * PropsPonder: `C103_larger_probabilities_cost_no_more`
  * PropsPool: `C90_everything_is_consistent`, `C90_consistent_with_threads`, `C90_everything_is_in_range`, `C90_cannot_fail`, `C90_without_none`
  * PropsPrecision: `C105_partial`, `C105_with_x64`, `C105_no_float64`, `C105_refuted`
  * PropsPytree: `C79_leaves`, `C79_tree_map`, `C79_tree_structure`, `C79_two_controllers`, `C79_wrong_number_of_leaves`
  * PropsRefs: `C77_refuted`, `C77_refuted_cached`, `C77_refuted_handed_out`, `C77_partial_nothing_written`, `C77_partial_ownership`, `C77_partial`, `C77_partial_careful`, `C77_partial_iterate`, `C77_partial_reset`, `C77_partial_transform`
  * PropsRename: `C80_names_are_labels`, `C80_names_are_labels_on_objects`, `C80_indexing`
  * PropsResume: `C89_continued`, `C89_spare_iterations`, `C89_halted_elements_are_final`
  * PropsScalar: `C64_every_element_runs_the_scalar_program`, `C64_halted_batches`
  * PropsSlice: `C63_one_call`, `C63_batching_is_transparent`, `C63_element_alone`
  * PropsSlope: `C75_results_are_locally_affine`, `C75_jump_at_the_threshold`, `C76_updates_do_not_influence_halting`, `C76_outputs_are_linear_in_the_updates`
  * PropsStable: `C102_results_are_stable`, `C102_running_results_are_stable`, `C102_the_jump_is_epsilon`
  * PropsState: `C38_round_trip`, `C38_rebuilt_behaves_the_same`, `C38_second_round_trip_is_identity`, `C39_refuted`, `C39_execute_act_refused`, `C39_partial`, `C40_save_load`, `C40_reading`, `C56_refuted`, `C57_replace`, `C57_replace_nothing`, `C57_replace_last_wins`
  * PropsStream: `C101_only_the_calls_since_the_reset`, `C101_one_input_after_another`
  * PropsSubset: `C70_one_call`, `C70_accumulators_do_not_interfere`, `C70_parts_decide`, `C70_halting_ignores_updates`
  * PropsText: `C83_lines`, `C83_nothing_lost`, `C83_nesting`
  * PropsThreads: `C88_as_if_in_turn`, `C88_contents_kept`, `C88_every_call_ends`, `C88_no_call_waits`
  * PropsTrace: `C73_one_call`, `C73_history`, `C73_evaluated_without_contents`, `C73_viewer`, `C73_builder`, `C73_silent_editor`, `C74_execute_act`, `C74_fails_at_once_or_never`, `C74_docstring_layers`
  * PropsUtils: `C43_can_right_broadcast`, `C43_symmetric`, `C44_setup_left_broadcast`, `C44_left_broadcast_repeats`, `C45_broadcast_pytree_shape`, `C45_prefix_decided`, `C46_execute_binary_operator`, `C46_equal_structure`, `C47_merge_pytrees`, `C48_refuted`, `C48_partial`, `C48_equivalence`, `C49_refuted`, `C49_refuted_shapes`, `C49_partial`
  * PropsViewer: `C28_masking`, `C28_masking_any_arithmetic`, `C30_partition`, `C31_refuted`, `C31_partial`, `C32_masks_compose`, `C32_mask_idempotent`, `C32_complement_shows_nothing`
  * PropsWarn: `C104_warns_partial`, `C104_warnings_as_errors`, `C104_silent_programs_are_not_affected`, `C104_refuted`
  * PropsZero: `C99_exact`
* **Axioms: `ClassicalDedekindReals.sig_forall_dec`, `ClassicalDedekindReals.sig_not_dec`, `Classical_Prop.classic`, `FunctionalExtensionality.functional_extensionality_dep`** (62 theorems)
  * PropsCompare: `C87_float`, `C87_tolerances`, `C87_reflexive_unless_nan`
  * PropsEditsFloat: `C91_float_runs_can_be_restored`
  * PropsEpsilonFloat: `C107_float_refuted`
  * PropsFloat: `C02_float_probability`, `C03_float_frozen_forever`, `C04_float_halting_is_permanent`, `C07_float_residual`, `C21_refuted`, `C21_refuted_nan`, `C21_partial`, `C29_refuted`, `C29_partial`, `C33_refuted_nan`, `C60_refuted`, `C60_partial`, `C60_partial_sharp`, `C61_refuted`, `C61_partial`
  * PropsFloat2: `C12_float_clamping`, `C15_float_reset`, `C17_float_reset_idempotent`, `C18_float_depression_zero`, `C30_float_partition`, `C32_float_masks_compose`, `C58_float_refuted`
  * PropsIeeeLoop: `C86_execution`, `C86_compiled_execution`, `C86_compiled_execution_returns`, `C86_thresholds`, `C86_stops_by_itself`, `C86_compiled_stops_by_itself`
  * PropsJit: `C78_partial`, `C78_partial_survivors`, `C78_partial_other_epsilon`, `C78_refuted`, `C78_partial_execute_act`, `C02_compiled_probability`
  * PropsLoopFloat: `C72_float_execution_is_batching_transparent`
  * PropsMixed: `C82_statistics`, `C82_like_a_core_controller`, `C82_entries`, `C82_accumulator_error`
  * PropsNan: `C98_refuted`, `C98_running`, `C98_execute_act`, `C98_partial`
  * PropsPonderFloat: `C103_float`
  * PropsPoolFloat: `C90_float_everything_is_in_range`
  * PropsResumeFloat: `C89_compiled_continued`, `C89_compiled_spare_iterations`, `C89_float_halted_elements_are_final`
  * PropsRounding: `C65_float`, `C66_weights_add_up`, `C67_accumulator_error`, `C68_halting_decision`, `C69_float`
  * PropsStreamFloat: `C101_float_only_the_calls_since_the_reset`, `C101_float_one_input_after_another`
  * PropsZero: `C99_refuted`, `C99_partial`
<!-- assumptions end -->

## 4. What is modelled, and what is not

Modelled: every function and method of `core/states.py`, `core/controller.py`, `core/builder.py`,
`core/viewer.py`, `core/tensoreditor.py`, `core/immutable.py`, `core/utils.py`, `layers/core.py`, `layers/act.py`, and `frameworks/flax.py`
as far as it is not flax itself.

Not modelled:

* `core/validation.py`: does not parse (`Callable[]`, a bare `class`, `config:  operand: Any, `), nothing
  imports it. `core/errors.py`, `layers/lazy_memory.py`: empty. `core/types.py`: type aliases.
* `core/broadcast_editor.py`: a class without methods that stores two attributes; nothing to state.
* XLA and JAX themselves: tracing, compilation, gradients (other than forward mode, `Dual.v`), devices, weak types beyond promotion with
  Python scalars, integer overflow; `jit` enters only as "flatten, rebuild, and every leaf must be a JAX
  value" (C38, C39, the loop carry) and, in `Jit.v`, through what it does to the two Python floats (C78).
* Which warnings Python's default filter repeats (it shows a text once per line of code). Outside `Messages.v` and `Messages2.v` exceptions are told apart by class only; errors raised inside JAX are one value `JaxError`.
* Of the texts of errors (C85, C92, C93): those that JAX or Python write, the causes of chained exceptions, what `checkify` appends, the text about
  a corrupt shapes pytree (it prints a path and a class) and the texts of `core/states.py` (its validators raise `NameError` before any text).
  How Python prints a class or a treedef is a parameter. `checkify` treats its message as a format
  string, so the text is as modelled only for names without braces.
* Of differentiation: reverse mode (JAX has none through `while_loop`), the `float0` tangents of integers (they are zero here, and proved to be so
  where the code counts), tangents in binary formats.
* flax's module system (parameter collections, `setup` machinery).

Simplifications (also stated at the definitions):

* Dtypes: bool, int32, float16, bfloat16, float32, float64; a requested dtype is honoured (with `jax_enable_x64`; without it see `Precision.v`, C105).
* IEEE instances: one format for all arrays of a state (`FloatNum`), or the core format and one larger
  format for accumulators (`MixedNum`, without shapes filled with Python floats); no flush to zero, NaN without payload, the choice
  of zero in `jnp.maximum` fixed.
* `checkify`: checks gathered in order, the first failure thrown at the end; Python booleans accepted.
* `jnp.issubdtype(leaf, jnp.floating)` with an array reads the dtype of the array.
* `lax.while_loop`: the body is traced on the initial values themselves (for layers that do not look at
  contents the values do not matter: C74).
* Pytree nodes are tuples, lists, dicts, `None` and namedtuples (and other classes that `asdict` copies as they are). Registered
  dataclasses, which `asdict` turns into dicts, occur only in `Dataclass.v` (C84); all other theorems about flattening are about
  pytrees without them.
* `EditorConfig` (`core/states.py:16-29`), a record of booleans that nothing uses, has no counterpart.
* Arguments have the documented Python types, except where the code checks them.
* ThreadSpec.v: the accesses of all threads happen one after another (the interpreter lock); one access is finer than
  one bytecode operation. Threads hand each other only objects returned by calls and do not assign attributes or
  dictionary items themselves (C42, C62 say what happens then). Functions given to `transform` are pure.
* Heap.v: arrays and nested pytrees are values; the aliasing of instances, state objects and the three
  dictionaries is modelled. `asdict` copies. Refs.v models the sharing of the containers inside pytrees,
  with the three tables as values; trees deeper than the recursion limit raise.
* Jit.v: compiled float operations round as the eager ones (XLA fuses nothing); scalars are float32
  inside, as in the default mode. With `jax_enable_x64`, `FloatNum` describes both worlds.
* A dtype error that JAX raises while operands are combined, and broadcasting errors, are `JaxError`.

## 5. Findings in the code

All found while stating or proving; the theorem that settles each is named.

1. `new_builder` (and the layers' `new_builder`) never returns: `ACTStates` needs `error_mode` (C22_refuted).
2. `reset_batches` raises AttributeError on every batched controller with a pytree accumulator (C16_refuted).
3. `transform` rebuilds the viewed updates from the defaults (C31_refuted).
4. `run_iteration`'s contract check inspects the incoming controller, so uncommitted updates of the
   returned one pass (C53_refuted, C92_refuted); with zero accumulators `all([])` makes the check fail always.
5. Accumulators of lower precision than the probabilities are accepted and can never be iterated (C14_refuted).
6. `are_pytree_structure_equal` identifies None and a leaf (C48_refuted), so `set_accumulator(name, None)`
   passes (C34_refuted).
7. `are_pytrees_equal` ignores structure, lets shapes broadcast, and raises on different leaf counts
   (C49_refuted, C49_refuted_shapes).
8. `set_updates` with an unknown name raises KeyError instead of its own error (C36_refuted).
9. The depression constant is not validated (C19_refuted, C19_refuted_unhalts).
10. Tiny and NaN epsilon are accepted and prevent halting for ever (C21_refuted, C21_refuted_nan); so does
    `set_epsilon(0)` (C58_refuted).
11. NaN probabilities pass `set_probabilities` (C33_refuted_nan).
12. Masking multiplies, so NaN and infinity become NaN instead of zero (C29_refuted).
13. Halting probabilities of at most half an ulp are absorbed (C60_refuted); the iteration count stops at
    2^prec (C61_refuted).
14. Validators of `ACTStates` raise NameError, `replace` of two fields raises AttributeError (C56_refuted).
15. A string `error_mode` is a pytree leaf and breaks `jit` and `while_loop` (C39_refuted, C39_execute_act_refused).
16. `_is_immutable` can be assigned and `del` is unguarded (C42_refuted, C42_refuted_delete).
17. Properties and `save()` hand out internal mutable objects, shared between controllers (C62_refuted,
    C62_refuted_save).
18. `merge_pytrees` pairs trees of different structure if the leaf counts agree (C47); `cache_update(name,
    None)` succeeds without making the slot pending (C10).
19. `broadcast_pytree_shape`: an empty source container facing leaves is AssertionError, not RuntimeError (C45).
20. Pytrees are stored and handed out without a copy: modifying the dict or list afterwards modifies the
    controller, its defaults included, and undoes the validation (C77_refuted, C77_case).
21. `epsilon` is a Python float: `1 - epsilon` is rounded once from float64 in eager code and computed in
    float32 inside `jit` and `execute_act`. The two thresholds can differ, and then an element can halt in
    one and not in the other (C78_refuted; epsilon 0.09 with float32 in C78_refuted_case).
22. `state_flatten` calls `dataclasses.asdict`, which also converts dataclass instances inside accumulators: after `jit` or a
    loop they are dicts, and updates are added to the wrong fields if the declaration order is not alphabetical (C84_refuted,
    C84_refuted_wrong_field).
23. `set_epsilon` above one says "Epsilon was too high. Probabilities should be greater than or equal to zero": the reason given is the one for
    the lower bound (`EpsilonHigh` in `MessagesSpec.v`, C85).
24. `broadcast_pytree_shape` says that the target "had tensor node" also where the target has `None` or an empty container (C93_refuted).
25. At the point where a cumulative probability hits the halting threshold exactly, or a halting value is exactly 0 or 1 (a saturated sigmoid),
    `jax.jvp` returns numbers that are not derivatives: half of the tangent for the clamps, and the tangent of one side for the threshold
    (C95_corners_are_needed).
26. A NaN halting probability makes an element that has already halted run again, with probability NaN and for good: the following iterations
    change its result, `reset_batches` never resets it, and `execute_act` runs to `max_iterations` (C98_refuted, C98_execute_act). Layers that
    keep computing on finished elements and diverge there trigger it (C98_execute_case).
27. Infinite updates with halting probability zero (masked logits, say) turn the accumulator into NaN (C99_refuted).
28. `check_for_errors` is compared by `is True` (layers/core.py:164): values such as `1` or `numpy.True_` switch the checks off silently. The
    model takes a Python bool.
29. `define_accumulator_by_shape` announces "Accumulator and defaults are being overwritten" before it checks its arguments, so also when it then
    refuses them and overwrites nothing; `define_accumulator_directly` overwrites without a word (C104_refuted).
30. In JAX's default mode `core_dtype=jnp.float64` and `dtype=jnp.float64` give float32 arrays; the builder does not check what it got (C105_refuted).
31. The example in the documentation of `ControllerBuilder` (core/builder.py:99-119) drops the builders that its definitions return, so its controller has
    no accumulators and every `cache_update` raises ValueError (C106_refuted); assigning the results repairs it (C106_partial). The second example passes
    a batch shape to the constructor, which stores it as the state.
32. `TensorEditor.set_epsilon` accepts any value in [0,1] at any time. Raised during a computation it halts elements that have handed out only part of
    their weights; their residual stays 0 and the next iteration sets their cumulative probability to 1 (C107_refuted, C107_float_refuted);
    setting epsilon back does not help after that (C107_setting_it_back_is_no_repair).

## 6. Testing the theorems

`seeded/mutate.py` edits one definition in a scratch copy, recompiles everything that depends on it, replaces
proofs that break by placeholders and reports which property theorems are, or by `Print Assumptions` rest
on, a broken proof. `seeded/LOG.jsonl` has one line per edit.

Rounds so far: hand-written edits of every model file, each with the claim it breaks (rounds 1 to 6; round 6 is the texts of
errors, round 7 the heap, threads, `jit` and IEEE arithmetic, round 8 the loop of `execute_act`, the checks of editors and builders, round 9 the edits, contract-check messages, viewers, operators, pytrees and forward-mode differentiation, round 10 durations, commuting definitions, reuse of batch places, stability and ponder cost, round 11 warnings, dtypes, the documented example and changes of epsilon), and automatic ones (swapped comparisons, dropped branches, changed
constants). Of the 177 automatic edits of the last round but one, 13 survive; all are equivalent programs or touch code no input reaches: the sign of a zero that is only
compared, the predicates of `validate_epsilon` and `validate_iterations` (finding: `execute_validation` raises NameError
before calling them), errors of `state_of_trees` that its callers exclude, a guard of `broadcast_pytree_shape` that never
fails, and an unreachable branch of `replicate_leaves`. Of the last round (492 edits) 21 survive: the sign of a zero, `replace` told
to keep epsilon by passing it on, `Nat.leb n 0` for `Nat.eqb n 0`, errors for dangling references and for layer results of length 0 after
the test for length 2 (no input reaches them), the dtype of a count of booleans plus one (no builder or editor makes one), and the tests
for finiteness in `f_close`, which C87 then pinned down.

`RepoTests.v` checks the model itself: it evaluates, on the model, the expectations of the repository's own tests
(/repo/tests), one example per test. They all hold of the model once an error mode is supplied, which
the tests omit; without it the model raises TypeError at once, as the pinned code does (C22).
