{
 "claims": [
  {
   "property": "C01",
   "status": "proved",
   "theorems": [
    "C01_counters_exact"
   ],
   "note": "Every rule representation (any vtable meeting the contract, which CompFacts proves of all modelled combinations), every configuration meeting cfg_ok, every operation sequence (fit, score, predict, store, retrieve, reinforcement learning, insert, ...), every random tape. Total numerosity ever created is bounded by 2^53 (costs). "
  },
  {
   "property": "C02",
   "status": "proved",
   "theorems": [
    "C02_size_limit"
   ],
   "note": "Every rule representation (any vtable meeting the contract, which CompFacts proves of all modelled combinations), every configuration meeting cfg_ok, every operation sequence (fit, score, predict, store, retrieve, reinforcement learning, insert, ...), every random tape. Total numerosity ever created is bounded by 2^53 (costs). "
  },
  {
   "property": "C03",
   "status": "proved",
   "theorems": [
    "C03_no_leak",
    "C03_all_freed"
   ],
   "note": "Every rule representation (any vtable meeting the contract, which CompFacts proves of all modelled combinations), every configuration meeting cfg_ok, every operation sequence (fit, score, predict, store, retrieve, reinforcement learning, insert, ...), every random tape. Total numerosity ever created is bounded by 2^53 (costs). No undefined behaviour, no leak between operations, all released at the end."
  },
  {
   "property": "C04",
   "status": "proved",
   "theorems": [
    "C04_covering"
   ],
   "note": "Every rule representation meeting the vtable contract, every configuration meeting cfg_ok, every state meeting the population invariant (which all operations preserve), every random tape. Post-condition of runs that end normally: the code exits when covering a rule fails too often (MAX_COVER), which cannot happen silently."
  },
  {
   "property": "C05",
   "status": "proved",
   "theorems": [
    "C05_match_set",
    "C05_invariant"
   ],
   "note": "Every rule representation meeting the vtable contract, every configuration meeting cfg_ok, every state meeting the population invariant (which all operations preserve), every random tape. "
  },
  {
   "property": "C06",
   "status": "proved",
   "theorems": [
    "C06_action_set"
   ],
   "note": "All states; building the action set always succeeds."
  },
  {
   "property": "C07",
   "status": "proved",
   "theorems": [
    "C07_deletion",
    "C07_deletion_relation"
   ],
   "note": "Every rule representation meeting the vtable contract, every configuration meeting cfg_ok, every state meeting the population invariant (which all operations preserve), every random tape. "
  },
  {
   "property": "C08",
   "status": "proved",
   "theorems": [
    "C08_wheel_selects",
    "C08_deletion_wheel",
    "C08_parent_wheel"
   ],
   "note": "In IEEE double precision, including infinite votes."
  },
  {
   "property": "C09",
   "status": "proved",
   "theorems": [
    "C09_fitness_in_unit",
    "C09_fitness_step"
   ],
   "note": "Every rule representation (any vtable meeting the contract, which CompFacts proves of all modelled combinations), every configuration meeting cfg_ok, every operation sequence (fit, score, predict, store, retrieve, reinforcement learning, insert, ...), every random tape. Total numerosity ever created is bounded by 2^53 (costs). Proved in IEEE double precision. C09_fitness_step gives the update formula."
  },
  {
   "property": "C10",
   "status": "proved",
   "theorems": [
    "C10_accuracy",
    "C10_share",
    "C10_order"
   ],
   "note": "In IEEE double precision. The power function is an oracle; C10_order assumes it antitone. A NaN error counts as accurate (see DESIGN.md)."
  },
  {
   "property": "C11",
   "status": "proved",
   "theorems": [
    "C11_set_subsumption"
   ],
   "note": "Every rule representation meeting the vtable contract, every configuration meeting cfg_ok, every state meeting the population invariant (which all operations preserve), every random tape. "
  },
  {
   "property": "C12",
   "status": "proved",
   "theorems": [
    "C12_ea_accounting"
   ],
   "note": "Every rule representation meeting the vtable contract, every configuration meeting cfg_ok, every state meeting the population invariant (which all operations preserve), every random tape. "
  },
  {
   "property": "C13",
   "status": "proved",
   "theorems": [
    "C13_refuted",
    "C13_offspring"
   ],
   "note": "Refuted as stated (lambda = 3 creates four offspring, C13_refuted, a finding); C13_offspring proves what holds: lambda if even, lambda + 1 if odd."
  },
  {
   "property": "C14",
   "status": "proved",
   "theorems": [
    "C14_ea_due"
   ],
   "note": "Every rule representation meeting the vtable contract, every configuration meeting cfg_ok, every state meeting the population invariant (which all operations preserve), every random tape. "
  },
  {
   "property": "C15",
   "status": "proved",
   "theorems": [
    "C15_unchanged_identical",
    "C15_ternary",
    "C15_rectangle",
    "C15_ellipsoid",
    "C15_dummy",
    "C15_integer"
   ],
   "note": "Every rule representation meeting the vtable contract, every configuration meeting cfg_ok, every state meeting the population invariant (which all operations preserve), every random tape. For ternary, hyperrectangle, hyperellipsoid and dummy conditions with integer actions."
  },
  {
   "property": "C16",
   "status": "proved",
   "theorems": [
    "C16_predict",
    "C16_score",
    "C16_score_n",
    "C16_parts",
    "C16_ternary",
    "C16_rectangle",
    "C16_ellipsoid",
    "C16_dummy",
    "C16_integer",
    "C16_constant",
    "C16_nlms",
    "C16_rls"
   ],
   "note": "Every rule representation meeting the vtable contract, every configuration meeting cfg_ok, every state meeting the population invariant (which all operations preserve), every random tape. Ages and matching counters do change."
  },
  {
   "property": "C17",
   "status": "proved",
   "theorems": [
    "C17_refuted",
    "C17_match",
    "C17_supervised",
    "C17_reinforcement"
   ],
   "note": "Every rule representation meeting the vtable contract, every configuration meeting cfg_ok, every state meeting the population invariant (which all operations preserve), every random tape. Refuted as stated for supervised match sets (C17_refuted, a finding: deletion of a micro-rule during covering is not reflected). Proved: never too small, exact when covering created no rule, and exact in reinforcement learning."
  },
  {
   "property": "C18",
   "status": "proved",
   "theorems": [
    "C18_prediction_array"
   ],
   "note": "Every rule representation meeting the vtable contract, every configuration meeting cfg_ok, every state meeting the population invariant (which all operations preserve), every random tape. In IEEE double precision."
  },
  {
   "property": "C19",
   "status": "proved",
   "theorems": [
    "C19_decision",
    "C19_best",
    "C19_random",
    "C19_best_value",
    "C19_random_never_ends"
   ],
   "note": "Every rule representation meeting the vtable contract, every configuration meeting cfg_ok, every state meeting the population invariant (which all operations preserve), every random tape. Random exploration can fail to end (C19_random_never_ends, a finding), modelled by fuel."
  },
  {
   "property": "C20",
   "status": "proved",
   "theorems": [
    "C20_refuted",
    "C20_closed_range",
    "C20_range",
    "C20_from_zero",
    "C20_all_values"
   ],
   "note": "Refuted as stated (C20_refuted, a finding: lo=2, hi=3 can yield 3). Proved for all int bounds: the closed range; the half-open range when hi-lo is at least the largest power of two below hi, in particular whenever lo=0; and that every value is reachable. In IEEE double precision, for every generator output."
  },
  {
   "property": "C21",
   "status": "proved",
   "theorems": [
    "C21_cover",
    "C21_match",
    "C21_general",
    "C21_order",
    "C21_refuted",
    "C21_refuted_nan"
   ],
   "note": "For up to 31 bits and inputs that are not NaN; refuted beyond (C21_refuted, C21_refuted_nan, findings). pow(2,bits) is assumed exact."
  },
  {
   "property": "C22",
   "status": "proved",
   "theorems": [
    "C22_cover",
    "C22_match"
   ],
   "note": "In IEEE double precision, all inputs, all random draws."
  },
  {
   "property": "C23",
   "status": "proved",
   "theorems": [
    "C23_general",
    "C23_order",
    "C23_finite"
   ],
   "note": "In IEEE double precision."
  },
  {
   "property": "C24",
   "status": "proved",
   "theorems": [
    "C24_refuted",
    "C24_refuted_cover",
    "C24_cover",
    "C24_match",
    "C24_test",
    "C24_wider"
   ],
   "note": "Generality refuted (C24_refuted, a finding) and covering refuted for zero extents (C24_refuted_cover). Proved: covering in all other cases, what the test decides, and inclusion for equal centres. In IEEE double precision."
  },
  {
   "property": "C25",
   "status": "proved",
   "theorems": [
    "C25_ternary",
    "C25_rectangle",
    "C25_ellipsoid"
   ],
   "note": "All sequences of operators, all random draws, IEEE double precision, given the stated contract on log/cos/sin/exp. Gradient update of centres (off by default) is only included when switched off."
  },
  {
   "property": "C26",
   "status": "proved",
   "theorems": [
    "C26_rates",
    "C26_step"
   ],
   "note": "Any number of adaptations, any draws, given the stated contract on log/cos/sin/exp."
  },
  {
   "property": "C27",
   "status": "proved",
   "theorems": [
    "C27_integer",
    "C27_population"
   ],
   "note": "Every rule representation (any vtable meeting the contract, which CompFacts proves of all modelled combinations), every configuration meeting cfg_ok, every operation sequence (fit, score, predict, store, retrieve, reinforcement learning, insert, ...), every random tape. Total numerosity ever created is bounded by 2^53 (costs). "
  },
  {
   "property": "C28",
   "status": "proved",
   "theorems": [
    "C28_insert",
    "C28_decode",
    "C28_parts",
    "C28_types",
    "C28_numbers",
    "C28_rates",
    "C28_empty",
    "C28_refuted"
   ],
   "note": "Refuted as stated (C28_refuted): documents with numerosity zero or negative, or an action out of range, are accepted (the next trial then writes out of bounds); an empty array is a null pointer dereference for every state (C28_empty); a large numerosity overflows. Proved for all documents (trees as built by the parser, which is not modelled), rule types of the model and population states: decoding never faults (C28_decode, C28_types), arrays and rates are those of the document or an error (C28_numbers, C28_rates), and inserting keeps the invariant when numerosities, actions, fitness, set size and experience are in the stated ranges (C28_insert). Types: hyperrectangle, hyperellipsoid, ternary, dummy, integer action, NLMS, RLS, constant; GP and neural always exit; DGP graph import only as far as C40."
  },
  {
   "property": "C29",
   "status": "proved",
   "theorems": [
    "C29_expansion",
    "C29_count"
   ],
   "note": "All dimensions. The count uses unbounded integers; in C it overflows an int from 46342 inputs (see DESIGN.md)."
  },
  {
   "property": "C30",
   "status": "proved",
   "theorems": [
    "C30_linear",
    "C30_refuted",
    "C30_quadratic",
    "C30_compute",
    "C30_update"
   ],
   "note": "Exact (real) arithmetic for the error contraction; the quadratic case is refuted as stated (C30_refuted, a finding: the step is normalised by the raw inputs, not by the expanded features) and C30_quadratic proves what holds. C30_compute and C30_update connect the exact model to the double precision code, which is the same parametric definition."
  },
  {
   "property": "C31",
   "status": "proved",
   "theorems": [
    "C31_step",
    "C31_run",
    "C31_init",
    "C31_compute",
    "C31_update"
   ],
   "note": "Exact arithmetic; any number of updates (C31_run)."
  },
  {
   "property": "C32",
   "status": "proved",
   "theorems": [
    "C32_step",
    "C32_mean",
    "C32_hull",
    "C32_code"
   ],
   "note": "Exact arithmetic; any sequence of targets."
  },
  {
   "property": "C33",
   "status": "proved",
   "theorems": [
    "C33_refuted",
    "C33_round_trip",
    "C33_empty",
    "C33_rule",
    "C33_nlms",
    "C33_rls"
   ],
   "note": "Refuted as stated (C33_refuted, a finding: constant predictions are zeroed and the order of the rules is reversed; an empty stored population is not restored, C33_empty). Proved for all populations, vtables and operations in between: the stored rules come back in reverse order, each as its copy (C33_round_trip, C33_rule); NLMS and RLS rules predict the same (C33_nlms, C33_rls), but the RLS gain matrix is reset."
  },
  {
   "property": "C34",
   "status": "proved",
   "theorems": [
    "C34_round_trip",
    "C34_network",
    "C34_overflow",
    "C34_refuted"
   ],
   "note": "Refuted as stated for one pair of configurations: loading a file with more GP constants than the existing system writes past the array of constants (C34_refuted; C34_overflow shows this happens for every such pair). Otherwise proved for all parameter values, all populations of rules with condition, action and prediction types of the model (incl. networks of connected, convolutional, pooling, upsample, softmax, dropout, noise layers; not recurrent/LSTM) and all existing systems: every parameter, statistic and rule attribute in order, exactly the elements written are consumed, nothing else touched. Elements are typed; byte representation and file errors are not modelled. Transient arrays (network states and gradients, scratch arrays) are fresh after loading; C34_network shows networks still compute the same outputs."
  },
  {
   "property": "C35",
   "status": "proved",
   "theorems": [
    "C35_load",
    "C35_loaded",
    "C35_same",
    "C35_refuted"
   ],
   "note": "Refuted as stated: xcsf_load does not resize the prediction array (C35_load), so a file of a system with more actions*outputs than the existing one makes the next prediction write outside of it (C35_refuted, a supervised prediction; C35_loaded shows it happens for every such pair of configurations whenever the array is built). Proved for every file, existing system, input and rule type: with enough room the trial does exactly what a system created with the loaded dimensions does. C35_same: for systems that keep their dimensions the model used by the other properties equals the one over the actual arrays."
  },
  {
   "property": "C36",
   "status": "proved",
   "theorems": [
    "C36_int",
    "C36_double",
    "C36_nan_refuted",
    "C36_bool",
    "C36_loss",
    "C36_loss_name",
    "C36_ea_select",
    "C36_type_names",
    "C36_clamped_int",
    "C36_clamped_double",
    "C36_unrestricted",
    "C36_clamped_refuted",
    "C36_type_refuted",
    "C36_file",
    "C36_file_refuted"
   ],
   "note": "All setters of param.c, ea.c, condition.c, prediction.c, action.c, dgp.c and gp.c, for all arguments. Refuted as stated: every setter of a double accepts NaN (C36_nan_refuted); the condition, prediction, action, DGP and GP setters clamp silently instead of reporting (C36_clamped_refuted) and accept unknown type codes (C36_type_refuted); file names longer than 512 characters are stored without terminator (C36_file_refuted). The positive theorems give the exact behaviour for all other values."
  },
  {
   "property": "C37",
   "status": "proved",
   "theorems": [
    "C37_loss",
    "C37_cond",
    "C37_pred",
    "C37_act",
    "C37_ea",
    "C37_layer",
    "C37_activ",
    "C37_layer_refuted"
   ],
   "note": "All codes, all terminated strings in any memory. Refuted for neural layers: names beginning with recurrent are accepted (C37_layer_refuted); C37_layer gives the exact set accepted."
  },
  {
   "property": "C38",
   "status": "proved",
   "theorems": [
    "C38_defined",
    "C38_mae",
    "C38_mae_one",
    "C38_mse",
    "C38_rmse",
    "C38_huber",
    "C38_log",
    "C38_binary_log",
    "C38_onehot",
    "C38_refuted",
    "C38_refuted_log"
   ],
   "note": "IEEE double precision. Refuted in corner cases (C38_refuted: MSE/MAE vanish by underflow, Huber with threshold 0 can be NaN; C38_refuted_log: negative log loss for predictions above 1, positive for perfect soft targets); proved otherwise. log is an oracle with the stated contract."
  },
  {
   "property": "C39",
   "status": "proved",
   "theorems": [
    "C39_refuted",
    "C39_valid",
    "C39_random",
    "C39_endless",
    "C39_copy",
    "C39_crossover",
    "C39_mutation",
    "C39_evaluation",
    "C39_cover",
    "C39_number",
    "C39_unique",
    "C39_system"
   ],
   "note": "gp.c and cond_gp.c (not JSON, printing, files), all trees, all random draws. Refuted exactly for two or five terminals (C39_refuted, a finding: a symbol out of range, read past the inputs); proved for all other numbers. Generation need not end (C39_endless). Trees of more than INT_MAX nodes are outside the model."
  },
  {
   "property": "C40",
   "status": "proved",
   "theorems": [
    "C40_refuted",
    "C40_range",
    "C40_update",
    "C40_mutation",
    "C40_connections",
    "C40_copy",
    "C40_cover",
    "C40_import_refuted",
    "C40_import",
    "C40_import_states",
    "C40_system"
   ],
   "note": "dgp.c and cond_dgp.c (not printing, files; of JSON the import of states and connections), all graphs, all random draws, IEEE double precision. Refuted for inputs of any size (C40_refuted, a finding: large finite inputs make a state NaN) and for imported connections (C40_import_refuted, a finding: off by one, read past the states); proved for all inputs whose products of max_k cannot overflow, and memory safety for all inputs."
  },
  {
   "property": "C41",
   "status": "proved",
   "theorems": [
    "C41_dgp",
    "C41_dgp_action",
    "C41_neural",
    "C41_neural_action",
    "C41_refuted_dgp",
    "C41_refuted_neural",
    "C41_refuted_short"
   ],
   "note": "REFUTED as stated, for DGP and neural rules: the covering loops stop as soon as the rule matches or computes the action, not both (C41_refuted_dgp, C41_refuted_neural, both failures shown from freshly initialised rules). Proved for all graphs, networks of connected/softmax/dropout/noise layers, inputs, actions and generators: covering does not fault and returns a rule that matches or computes the requested action. Assumes pow(2,k) exact; graphs with too few nodes read out of bounds (C41_refuted_short)."
  },
  {
   "property": "C42",
   "status": "proved",
   "theorems": [
    "C42",
    "C42_mutate",
    "C42_refuted_removal",
    "C42_refuted_addition",
    "C42_refuted_conv",
    "C42_resize",
    "C42_update",
    "C42_count"
   ],
   "note": "All layers, random draws and libm functions. Connectivity mutation together with its repair step is proved as stated. Refuted for the whole mutation operator (findings): removing a neuron may leave an input feeding nothing, adding one may leave it without inputs, as the repair only runs when connectivity itself mutated; convolutional layers have no repair step. A layer whose number of neurons does not change keeps the property."
  },
  {
   "property": "C43",
   "status": "proved",
   "theorems": [
    "C43_count",
    "C43_add",
    "C43_mutate",
    "C43_safe",
    "C43_filters",
    "C43_conv",
    "C43_conv_safe"
   ],
   "note": "All layers within the limits the constructors enforce, all random draws. Never fails (libm contract as for C09; fuel only for the self-adaptation loop)."
  },
  {
   "property": "C44",
   "status": "proved",
   "theorems": [
    "C44_insert",
    "C44_remove",
    "C44_remove_first",
    "C44_rejected",
    "C44_push",
    "C44_pop",
    "C44_walk",
    "C44_copy",
    "C44_free",
    "C44_refuted_insert",
    "C44_refuted_remove"
   ],
   "note": "Pointer level (heap of list cells), any kind of layer, all lists and positions. Refuted (findings): inserting at position 0 of a network with layers always dereferences NULL (C44_refuted_insert); removing the layer at the input leaves the number of inputs stale (C44_refuted_remove); positions beyond the end are not rejected by neural_insert but append (C44_insert)."
  },
  {
   "property": "C45",
   "status": "proved",
   "theorems": [
    "C45_activation",
    "C45_state",
    "C45_connected",
    "C45_softmax",
    "C45_network",
    "C45_refuted_layer",
    "C45_refuted_selu",
    "C45_refuted_scale",
    "C45_refuted_negative"
   ],
   "note": "Refuted as stated and proved under explicit conditions. Counterexamples for a libm meeting the contract: finite inputs 1e308 with weights 10 and -10 give NaN; SELU of an unclamped state; softmax with scale zero or negative. Proved: all eleven activations have their range on every finite state (SELU: on clamped states); connected layers, softmax layers and whole networks outside of training keep every output in range when weights, inputs and scale are not extreme (exponents adding up to at most 980). The libm contract is range_ok."
  },
  {
   "property": "C46",
   "status": "proved",
   "theorems": [
    "C46",
    "C46_where",
    "C46_array",
    "C46_values"
   ],
   "note": "Exact (real) arithmetic; the code is one parametric definition used with doubles and with reals. All activation functions and states."
  },
  {
   "property": "C47",
   "status": "proved",
   "theorems": [
    "C47_init",
    "C47_average",
    "C47_average_doubles",
    "C47_max",
    "C47_max_back",
    "C47_max_back_doubles",
    "C47_max_ends",
    "C47_upsample",
    "C47_upsample_back",
    "C47_refuted_stride",
    "C47_refuted_window",
    "C47_refuted_zero"
   ],
   "note": "Every geometry the constructors accept (images with at least one cell), all inputs. Refuted for degenerate geometries that are accepted too (findings: negative stride, windows outside the image, stride 0). Max pooling in double precision; sums in exact arithmetic and, with the order of additions, in double precision."
  },
  {
   "property": "C48",
   "status": "proved",
   "theorems": [
    "C48",
    "C48_doubles",
    "C48_init",
    "C48_adjoint",
    "C48_overflow",
    "C48_refuted_stride",
    "C48_refuted_pad",
    "C48_refuted_overflow",
    "C48_refuted_size"
   ],
   "note": "Exact arithmetic, and double precision with the order of operations; any image, number of filters, size, stride (also negative) and padding, under three conditions that are also shown to be needed: filters of one cell need stride 1 and no padding (C48_refuted_stride, C48_refuted_pad), the int indexing the workspace must not overflow (C48_overflow, C48_refuted_overflow), the filter must not be larger than the padded image (C48_refuted_size). All four are findings."
  },
  {
   "property": "C49",
   "status": "proved",
   "theorems": [
    "C49_gemm",
    "C49_gemm_doubles",
    "C49_dot",
    "C49_axpy",
    "C49_scal",
    "C49_fill",
    "C49_mul",
    "C49_sum"
   ],
   "note": "All dimensions, leading dimensions and strides, for any number type (C49_gemm for exact arithmetic, C49_gemm_doubles for the code's own order of operations in any arithmetic, double precision included)."
  },
  {
   "property": "C50",
   "status": "proved",
   "theorems": [
    "C50",
    "C50_squared",
    "C50_refuted"
   ],
   "note": "Exact arithmetic, all layer sizes, weights, inputs and differentiable objectives, all activation functions. Refuted for neuron states at the limits of +-100 (C50_refuted, a finding: the clamping is ignored by the backward pass); proved inside the limits."
  },
  {
   "property": "C51",
   "status": "proved",
   "theorems": [
    "C51_init",
    "C51_state",
    "C51_execute",
    "C51_environment",
    "C51_trial"
   ],
   "note": "env_mux.c in full, in double precision. Assumes that pow(2,k) is exact for k = 0..31 (pow2_exact) and that allocation succeeds. Requested lengths below 3 give a one-entry problem."
  },
  {
   "property": "C52",
   "status": "proved",
   "theorems": [
    "C52_load",
    "C52_load_only",
    "C52_load_refuted",
    "C52_rectangle",
    "C52_reset",
    "C52_reset_all",
    "C52_reset_stuck",
    "C52_sense",
    "C52_execute",
    "C52_environment"
   ],
   "note": "env_maze.c in full. The loading part is refuted for files with a line of more than 50 characters or characters after the 50th line (C52_load_refuted, a finding: the bound check comes after the write) and proved for exactly the other files (C52_load, C52_load_only). Resetting need not end (C52_reset_stuck). Files are assumed readable."
  },
  {
   "property": "C53",
   "status": "proved",
   "theorems": [
    "C53_trial",
    "C53_update",
    "C53_fit",
    "C53_experiment",
    "C53_refuted"
   ],
   "note": "Every rule representation meeting the vtable contract, every configuration meeting cfg_ok, every state meeting the population invariant (which all operations preserve), every random tape. For any environment meeting env_ok, with one output. C53_update gives the target of the update of the previous action set and of the terminal update. Refuted in one respect (C53_refuted, a finding): in the terminal step, rules also in the previous action set are updated with the prediction and the input of the previous state, so a perfect rule is made worse. Compilers where a zero-length array is harmless are assumed (vla0_is_ub = false)."
  },
  {
   "property": "C54",
   "status": "proved",
   "theorems": [
    "C54_fit",
    "C54_score_all",
    "C54_score"
   ],
   "note": "Every rule representation meeting the vtable contract, every configuration meeting cfg_ok, every state meeting the population invariant (which all operations preserve), every random tape. With and without shuffling, with and without a test set. Exact order of the double precision operations."
  },
  {
   "property": "C55",
   "status": "proved",
   "theorems": [
    "C55_refuted",
    "C55_epochs",
    "C55_count",
    "C55_exact",
    "C55_rows"
   ],
   "note": "Python wrapper (pybind_wrapper.cpp), all data sets, all populations satisfying the invariant, all random draws. Refuted as stated (C55_refuted, a finding: 3 trials requested, 4 run). Proved: the number of trials is ceil(MAX/PERF) * min(MAX, PERF), which is right exactly when MAX <= PERF or PERF divides MAX (C55_exact); the double-precision ceiling is exact for all positive ints (C55_epochs); one training trial per row (C55_rows). Without callbacks; see C57 for callbacks."
  },
  {
   "property": "C56",
   "status": "proved",
   "theorems": [
    "C56_refuted",
    "C56_refuted_free",
    "C56_refuted_converted",
    "C56_refuted_short",
    "C56_refuted_leak",
    "C56_no_cover",
    "C56_call",
    "C56_array"
   ],
   "note": "Python wrapper (pybind_wrapper.cpp), all data sets, all populations satisfying the invariant, all random draws. Memory blocks with an owner are modelled (who may free them). Refuted as stated (five findings: the caller's array is overwritten by later calls, passed to free(), read after its temporary is gone, read past its end with several actions; predict leaks). Proved for all programs that never pass a cover array, and what a call with a cover array of the right size does."
  },
  {
   "property": "C57",
   "status": "proved",
   "theorems": [
    "C57_early_stopping",
    "C57_best",
    "C57_refuted"
   ],
   "note": "Python wrapper (pybind_wrapper.cpp), all data sets, all populations satisfying the invariant, all random draws. One new callback, warm or cold start, with or without validation data. Refuted when no monitored error is a number (C57_refuted, a finding: a population stored by the user comes back)."
  },
  {
   "property": "C58",
   "status": "proved",
   "theorems": [
    "C58_training",
    "C58_split",
    "C58_step",
    "C58_clock",
    "C58_refuted"
   ],
   "note": "Refuted as stated (C58_refuted, a finding: overflow from trial 1073742 on with the population limit 2000). Proved: no overflow as long as the population limit times the clock fits into an int; bounds on clock and time stamps after any operations. C58_refuted starts from a rule inserted with that time stamp (as exported by an earlier run); the run of a million trials itself is not executed in the model."
  },
  {
   "property": "C59",
   "status": "proved",
   "theorems": [
    "C59_exact",
    "C59_rule_exact",
    "C59_double",
    "C59_box",
    "C59_refuted",
    "C59_match",
    "C59_action",
    "C59_error"
   ],
   "note": "Exact arithmetic for all BETA in [0,1]; double precision for BETA up to 1/2 (system averages), and for all BETA within [0, power of two]. Refuted in double precision for BETA = 1 (C59_refuted, a finding: cancellation). C59_match, C59_action and C59_error show that the code computes these averages; the per-rule averages are covered in exact arithmetic (C59_rule_exact)."
  },
  {
   "property": "C60",
   "status": "proved",
   "theorems": [
    "C60_rule",
    "C60_population",
    "C60_match",
    "C60_reachable"
   ],
   "note": "Every rule representation meeting the vtable contract, every configuration meeting cfg_ok, every state meeting the population invariant (which all operations preserve), every random tape. Double precision. Counters are assumed to be at most 2^53 (they are C ints)."
  },
  {
   "property": "C61",
   "status": "proved",
   "theorems": [
    "C61_init",
    "C61_calls",
    "C61_cfg",
    "C61_init_refuted"
   ],
   "note": "Setter calls with NaN are excluded (C36_nan_refuted). Refuted for rejected dimensions (C61_init_refuted). Neural layer arguments and the GP constants are not part of the parameters modelled here."
  },
  {
   "property": "C62",
   "status": "proved",
   "theorems": [
    "C62_two_dimensional",
    "C62_any",
    "C62_predict",
    "C62_refuted",
    "C62_predict_refuted"
   ],
   "note": "All shapes and contents. Refuted for one-dimensional arrays (C62_refuted, C62_predict_refuted, findings: the number of columns is not checked)."
  },
  {
   "property": "C63",
   "status": "proved",
   "theorems": [
    "C63_score",
    "C63_refuted"
   ],
   "note": "Python wrapper (pybind_wrapper.cpp), all data sets, all populations satisfying the invariant, all random draws. Refuted for a limit of one (C63_refuted, a finding: all rows are looked at)."
  },
  {
   "property": "C64",
   "status": "proved",
   "theorems": [
    "C64_checkpoint",
    "C64_refuted"
   ],
   "note": "Python wrapper (pybind_wrapper.cpp), all data sets, all populations satisfying the invariant, all random draws. One new callback. Files are modelled as snapshots of the system (see C34 for what the file holds). Refuted for save_best_only with a save frequency (C64_refuted, a finding)."
  },
  {
   "property": "C65",
   "status": "proved",
   "theorems": [
    "C65",
    "C65_doubles",
    "C65_off"
   ],
   "note": "Exact arithmetic, and double precision with the order of operations. Connected and convolutional layers; recurrent and LSTM layers are the subject of C74 and C75."
  },
  {
   "property": "C66",
   "status": "proved",
   "theorems": [
    "C66_create",
    "C66_copy",
    "C66_rand",
    "C66_propagate",
    "C66_output",
    "C66_learn",
    "C66_mutate",
    "C66_mutate_fixed",
    "C66_resize",
    "C66_life",
    "C66_refuted_outputs",
    "C66_refuted_targets",
    "C66_refuted_image"
   ],
   "note": "Networks of connected, softmax, dropout and noise layers, all histories. Refuted (findings): neural_mutate leaves the network's number of outputs stale when the output layer changes size (C66_refuted_outputs); targets shorter than the output layer are read past their end (C66_refuted_targets); image layers behind a connected layer that changes size are resized with a stale width (C66_refuted_image)."
  },
  {
   "property": "C67",
   "status": "proved",
   "theorems": [
    "C67_ternary",
    "C67_rectangle",
    "C67_ellipsoid",
    "C67_centres",
    "C67_action",
    "C67_eta",
    "C67_rates",
    "C67_half",
    "C67_draws_ternary",
    "C67_draws_rectangle",
    "C67_draws_ellipsoid"
   ],
   "note": "All conditions, rates and generator states under the contract of libm (libm_ok) and of the cached normal variate (gen_ok, preserved). The C67_draws theorems say which word of the generator decides which position, and C67_half that exactly half of the values of a word lead to an exchange; that the words are evenly distributed is not claimed."
  },
  {
   "property": "C68",
   "status": "proved",
   "theorems": [
    "C68",
    "C68_code"
   ],
   "note": "Exact (real) arithmetic; connected layers only; the objective is minus half the squared error, whose gradient is the delta the code starts from. Hypotheses exclude states at or beyond the limits (there the code is not the gradient, see C50_refuted) and kinks. C68_code ties the forward pass to the code in doubles."
  },
  {
   "property": "C69",
   "status": "proved",
   "theorems": [
    "C69_propagate",
    "C69_predict",
    "C69_match",
    "C69_size",
    "C69_flag"
   ],
   "note": "In doubles, any libm. Dropout and noise in training: each output is zero or scaled, respectively kept or perturbed by a normal variate. The converse for the flag is stated for connections that do not evolve, since a removed connection may be put back when the layer is repaired."
  },
  {
   "property": "C70",
   "status": "proved",
   "theorems": [
    "C70_table",
    "C70_read",
    "C70_rows",
    "C70_file",
    "C70_length",
    "C70_pair",
    "C70_refuted"
   ],
   "note": "Refuted as stated (C70_refuted): an empty line at the end of a file with two or more columns and any line of 200 or more characters dereference NULL, an empty field shifts the columns; if the inputs have fewer rows than the targets rows are read out of bounds (C70_pair). Proved exactly what happens for every file whose lines fit in the buffer (C70_read), and that tables are read as written (C70_table). strtod is an arbitrary function, for C70_table one that ignores a newline at the end."
  },
  {
   "property": "C71",
   "status": "proved",
   "theorems": [
    "C71_lines",
    "C71_read",
    "C71_strip",
    "C71_pieces",
    "C71_refuted"
   ],
   "note": "Refuted as stated (C71_refuted): a file without newline, blank or comment overflows the buffer by one byte; a comment longer than 124 characters leaks into the configuration. Proved exactly what is read for every file (C71_read) and the statement for files of short lines (C71_lines)."
  },
  {
   "property": "C72",
   "status": "proved",
   "theorems": [
    "C72_expand",
    "C72_classifier",
    "C72_pred_expand",
    "C72_to_classifier",
    "C72_insert",
    "C72_pop",
    "C72_refuted_single",
    "C72_refuted_cover",
    "C72_refuted_stale"
   ],
   "note": "Refuted as stated in three cases: networks of one layer (C72_refuted_single: NULL is dereferenced), rules covered after a conversion to more classes than the old number of outputs (C72_refuted_cover: the program exits), and output layers that evolved and are kept (C72_refuted_stale). Proved for single networks and for the population otherwise. Connected, softmax, dropout and noise layers within the limits of neural_layer.h."
  },
  {
   "property": "C73",
   "status": "proved",
   "theorems": [
    "C73_life",
    "C73",
    "C73_train",
    "C73_action",
    "C73_cover",
    "C73_refuted_outputs"
   ],
   "note": "Refuted if the action network has fewer outputs than there are actions (C73_refuted_outputs). Proved for networks of connected layers with a fixed number of neurons and softmax layers, conditions of connected layers only, any libm and generator; one value of explore for the whole run, which C73_train shows makes no difference to these networks. A run may not end (covering repeats until it succeeds) or exit; C73_cover says what holds if covering ends."
  },
  {
   "property": "C74",
   "status": "proved",
   "theorems": [
    "C74_init",
    "C74_forward",
    "C74_backward",
    "C74_life",
    "C74_copy",
    "C74_refuted_copy",
    "C74_refuted_gradient",
    "C74_refuted_rate",
    "C74_growth",
    "C74_refuted_growth",
    "C74_refuted_load"
   ],
   "note": "Refuted in five ways: a copy forgets the last output (C74_refuted_copy; C74_copy says what it computes), the backward pass is not the gradient (C74_refuted_gradient; C74_backward says what it is), a mutation of the rate stops learning (C74_refuted_rate), grown layers learn from uninitialised states (C74_growth, C74_refuted_growth), a layer read from a file has no output (C74_refuted_load). Well-formedness and the equations hold (C74_init, C74_forward, C74_life). The layer on its own: networks that contain recurrent layers are not modelled."
  },
  {
   "property": "C75",
   "status": "proved",
   "theorems": [
    "C75_init",
    "C75_forward",
    "C75_backward",
    "C75_life",
    "C75_refuted_training",
    "C75_copy",
    "C75_refuted_copy",
    "C75_load",
    "C75_refuted_load"
   ],
   "note": "Refuted: five of the eight layers are never trained (C75_refuted_training; C75_backward says what is), a copy forgets cells and outputs (C75_refuted_copy, C75_copy), a file forgets the activation functions (C75_refuted_load; C75_load if they are logistic). Well-formedness and the equations of the forward pass hold (C75_init, C75_forward, C75_life). The layer on its own: networks that contain LSTM layers are not modelled."
  },
  {
   "property": "C76",
   "status": "proved",
   "theorems": [
    "C76_export",
    "C76_round_trip",
    "C76_layers",
    "C76_layers_again",
    "C76_validation",
    "C76_read_layers",
    "C76_accepted",
    "C76_rejected",
    "C76_refuted_infinite",
    "C76_refuted_file",
    "C76_refuted_network"
   ],
   "note": "Refuted as stated for infinite values (C76_refuted_infinite: the document contains null and reading it ends the program), for file names of more than 512 characters (C76_refuted_file: read past the end) and, if there are networks, that export only reads (C76_refuted_network: random numbers are drawn and the layer parameters change). Proved otherwise: C76_export, C76_round_trip for every parameter, C76_layers for network layers. Documents are trees: the cJSON text is not modelled."
  },
  {
   "property": "C77",
   "status": "proved",
   "theorems": [
    "C77_range",
    "C77_python",
    "C77_refuted_trees",
    "C77_refuted_graphs",
    "C77_trees",
    "C77_graphs",
    "C77_refuted_layers"
   ],
   "note": "The ranges hold for all documents (C77_range, C77_python). Refuted that components have the dimensions of a Python object: GP trees and DGP graphs see one input whatever x_dim is (C77_refuted_trees, C77_refuted_graphs; C77_trees and C77_graphs say what they see in general), default layers are those of one input, output and action (C77_refuted_layers)."
  },
  {
   "property": "C78",
   "status": "proved",
   "theorems": [
    "C78_population",
    "C78_parts",
    "C78_rule",
    "C78_values",
    "C78_members",
    "C78_refuted_rls",
    "C78_refuted_infinite",
    "C78_refuted_empty"
   ],
   "note": "Refuted for RLS predictions (C78_refuted_rls: the gain matrix is not written), for weights that are not finite (C78_refuted_infinite: read as zero) and for empty sets (C78_refuted_empty: NULL is dereferenced on reading). Proved otherwise: C78_population for systems with at least two actions and rules with finite numbers, C78_rule and C78_values for one rule with any numbers. Documents are trees: the cJSON text is not modelled. GP trees, DGP graphs and networks are left out."
  },
  {
   "property": "C79",
   "status": "proved",
   "theorems": [
    "C79_conditions",
    "C79_predictions",
    "C79_between",
    "C79_other",
    "C79_sizes",
    "C79_part_sizes",
    "C79_refuted_empty",
    "C79_refuted_large"
   ],
   "note": "Refuted for the mean sizes of an empty set (C79_refuted_empty: not a number) and for many large networks (C79_refuted_large: the int sum overflows); proved otherwise. Networks without recurrent layers. Of mean rates of learning only the bounds are proved, for rates between zero and one."
  },
  {
   "property": "C80",
   "status": "proved",
   "theorems": [
    "C80_round_trip",
    "C80_valid",
    "C80_rule",
    "C80_import",
    "C80_accepted",
    "C80_refuted_size",
    "C80_refuted_rates",
    "C80_refuted_cycles"
   ],
   "note": "Refuted in four ways: a document may give more nodes than the parameters and copies of the graph then overflow (C80_refuted_size), without rates the next mutation reads uninitialised memory (C80_refuted_rates), the number of cycles is not limited (C80_refuted_cycles), and connections are accepted that are one too large (C40_import_refuted). Proved that valid graphs come back as they were (C80_valid), exactly which documents are accepted (C80_import) and what holds of accepted graphs (C80_accepted). A document is what cJSON_Parse returns; memory never written is an empty array in the model, so that reading it is an error outcome."
  }
 ]
}