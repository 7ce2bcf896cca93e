{"id": "C01", "title": "Population counters are always exact", "statement": "After any sequence of public operations (fit, predict, score, RL fit/trials, JSON insertion, store/retrieve) the population reports a macro count equal to the number of distinct rules it holds and a micro count equal to the sum of their numerosities; every rule has numerosity at least 1 and occurs once.", "quantifier": "all operation sequences, all random draws, all parameter values accepted by the setters, all representations honouring the vtable contract", "why_tests_cant": "Counters are maintained by scattered ++/-- in six functions; a drift needs a specific interleaving of covering, deletion, subsumption and EA with particular random draws, and a test sees only a few seeds.", "anchors": ["xcsf/clset.c:clset_add,clset_validate,clset_pset_del,clset_subsumption,clset_cover", "xcsf/ea.c:ea,ea_add,ea_subsume", "xcsf/xcsf.c:xcsf_store_pset,xcsf_retrieve_pset"]}
{"id": "C02", "title": "Population never exceeds its configured size", "statement": "After every trial of fit, predict, score or RL, and after every JSON rule insertion, the total numerosity of the population is at most POP_SIZE.", "quantifier": "all sequences of operations, all inputs, all random draws, all POP_SIZE >= 1", "why_tests_cant": "The bound must hold after each of unboundedly many trials, including the exploit trials that cover; tests check it after a run.", "anchors": ["xcsf/clset.c:clset_pset_enforce_limit,clset_pset_del,clset_cover,clset_json_insert_cl", "xcsf/ea.c:ea"]}
{"id": "C03", "title": "Rule memory is released exactly once and never used after release", "statement": "During any sequence of public operations no rule is accessed after being freed and none is freed twice; between operations the live rules are exactly those of the current and the stored population; after the system is freed nothing is live.", "quantifier": "all sequences of operations including multi-step RL trials, all random draws", "why_tests_cant": "A use-after-free needs a rule that is simultaneously in several of pset/mset/aset/prev_aset/kset to be deleted at a particular moment; sanitised tests only sample schedules.", "anchors": ["xcsf/clset.c:clset_kill,clset_free,clset_validate,clset_pset_del,clset_subsumption", "xcsf/xcs_rl.c:xcs_rl_init_trial,xcs_rl_end_step,xcs_rl_end_trial,xcs_rl_update", "xcsf/xcs_supervised.c:xcs_supervised_trial", "xcsf/xcsf.c:xcsf_free,xcsf_store_pset,xcsf_retrieve_pset"]}
{"id": "C04", "title": "Covering makes every action available", "statement": "When a trial with covering returns, for every action some rule in the match set advocates it and every rule in the match set matches the input; otherwise the program has terminated with the documented covering error.", "quantifier": "all inputs, all populations satisfying the bookkeeping invariant, all random draws, all numbers of actions", "why_tests_cant": "Covering and deletion fight each other: the population limit may delete the rule just created; the loop must be shown to re-check coverage in every case.", "anchors": ["xcsf/clset.c:clset_cover,clset_action_coverage,clset_match"]}
{"id": "C05", "title": "The match set is exactly the matching rules", "statement": "Matching without covering puts into the match set precisely those population rules whose condition matches the input (each once), increments each rule's seen-count by one and its matched-count by one iff it matched, and changes no other rule attribute except the cached match flag and action.", "quantifier": "all populations, all inputs", "why_tests_cant": "An equality of sets plus a frame condition over every rule attribute for arbitrary populations.", "anchors": ["xcsf/clset.c:clset_match", "xcsf/cl.c:cl_match,cl_action"]}
{"id": "C06", "title": "The action set is exactly the advocates of the chosen action", "statement": "Building the action set selects precisely the match-set rules whose current action equals the chosen one, in reversed order, and its counters are their number and total numerosity.", "quantifier": "all match sets, all actions", "why_tests_cant": "Quantifies over arbitrary match sets and actions.", "anchors": ["xcsf/clset.c:clset_action,clset_add"]}
{"id": "C07", "title": "Deletion removes exactly one micro-rule", "statement": "Each deletion step lowers the numerosity of exactly one rule by one; the rule disappears iff its numerosity becomes zero; all others are unchanged and keep their order; a rule that never matched within its probation is always chosen first.", "quantifier": "all non-empty populations, all random draws", "why_tests_cant": "Requires quantifying over all populations and random draws, and a frame condition on all other rules.", "anchors": ["xcsf/clset.c:clset_pset_never_match,clset_pset_roulette,clset_pset_del"]}
{"id": "C08", "title": "Roulette selection never runs off the list", "statement": "Selecting a rule for deletion or as a parent by roulette wheel in double-precision arithmetic always returns a member of the set and never dereferences past its end, for any non-negative votes including zeros, infinities and huge spreads.", "quantifier": "all non-empty lists of non-negative doubles (including +inf), all random draws", "why_tests_cant": "The failure is a rounding phenomenon (spin value exceeding the accumulated sum); only a proof about IEEE rounding excludes it for all magnitudes.", "anchors": ["xcsf/clset.c:clset_pset_roulette", "xcsf/ea.c:ea_select_rw", "xcsf/utils.c:rand_uniform"]}
{"id": "C09", "title": "Fitness stays within [0,1]", "statement": "If every rule's fitness starts in [0,1], the fitness update in double precision keeps every fitness in [0,1] (never NaN), whatever the accuracies and numerosities.", "quantifier": "all sets, all accuracies produced by the accuracy function, all BETA in [0,1], all double-precision values", "why_tests_cant": "Rounding error could push a value past the bound; tests sample values.", "anchors": ["xcsf/clset.c:clset_update_fit", "xcsf/cl.c:cl_acc,cl_update_fit"]}
{"id": "C10", "title": "Accuracy is positive and ordered by error", "statement": "A rule's accuracy is exactly 1 when its error does not exceed E0 and otherwise lies between DBL_EPSILON and max(ALPHA, DBL_EPSILON), so a shared accuracy sum is never zero and the relative accuracies of a set are well defined.", "quantifier": "all errors, all E0/ALPHA/NU accepted by the setters, any pow() meeting its range contract", "why_tests_cant": "Boundary values (E0=0, infinite error ratios) make 0/0 possible; must hold for all doubles.", "anchors": ["xcsf/cl.c:cl_acc", "xcsf/clset.c:clset_update_fit"]}
{"id": "C11", "title": "Set subsumption conserves numerosity and direction", "statement": "Set subsumption leaves the total numerosity of the population and of the processed set unchanged; it removes only rules that the chosen subsumer generalises, the subsumer was experienced and accurate, and every rule not removed is unchanged apart from the subsumer's numerosity.", "quantifier": "all sets that are subsets of the population, all vtable generality relations", "why_tests_cant": "Conservation over arbitrary sets with an arbitrary (even non-transitive) generality relation.", "anchors": ["xcsf/clset.c:clset_subsumption", "xcsf/cl.c:cl_subsumer,cl_general"]}
{"id": "C12", "title": "The EA accounts for every offspring", "statement": "One EA invocation that fires raises the population's total numerosity by exactly the number of offspring created, before the size limit is enforced, regardless of which offspring are absorbed by parents, by set members, or added.", "quantifier": "all sets, all random draws, all subsumption settings", "why_tests_cant": "Every branch combination of two offspring per pair across arbitrary lambda must balance.", "anchors": ["xcsf/ea.c:ea,ea_add,ea_subsume"]}
{"id": "C13", "title": "The EA creates lambda offspring", "statement": "An EA invocation creates exactly the configured lambda offspring.", "quantifier": "all lambda >= 2 accepted by the setter", "why_tests_cant": "A property over all lambda; the test-suite uses the default only.", "anchors": ["xcsf/ea.c:ea,ea_param_set_lambda"]}
{"id": "C14", "title": "The EA fires only when due", "statement": "The EA runs on a set only if the set is non-empty and the numerosity-weighted mean time since last participation is at least theta; when it does not fire nothing but the clock changes; when it fires every member of the set is stamped with the current time.", "quantifier": "all sets, clocks and thresholds", "why_tests_cant": "Frame condition over all rules; quantifies over all sets.", "anchors": ["xcsf/ea.c:ea", "xcsf/clset.c:clset_mean_time,clset_set_times,clset_total_time"]}
{"id": "C15", "title": "Absorbed offspring are genuinely identical", "statement": "If the EA reports no crossover and no mutation change for an offspring (and therefore increments the parent instead), the offspring's condition and action equal the parent's.", "quantifier": "all parents, all random draws, for ternary, hyperrectangle, hyperellipsoid and dummy conditions with integer actions", "why_tests_cant": "A change-detection flag that misses one branch is only visible for specific draws.", "anchors": ["xcsf/cond_ternary.c:cond_ternary_mutate,cond_ternary_crossover", "xcsf/cond_rectangle.c:cond_rectangle_mutate,cond_rectangle_crossover", "xcsf/cond_ellipsoid.c:cond_ellipsoid_mutate,cond_ellipsoid_crossover", "xcsf/act_integer.c:act_integer_mutate", "xcsf/ea.c:ea_add"]}
{"id": "C16", "title": "Predicting with user-supplied cover values leaves the rules alone", "statement": "predict/score given explicit cover values never add, delete or re-weight rules: the population list, numerosities, fitness, error, experience, conditions, actions and weights are unchanged, and an input no rule matches yields exactly the given values.", "quantifier": "all populations, all inputs, all cover arrays", "why_tests_cant": "A frame property across the complete state for arbitrary data.", "anchors": ["xcsf/xcs_supervised.c:xcs_supervised_trial,xcs_supervised_predict,xcs_supervised_score", "xcsf/clset.c:clset_match"]}
{"id": "C17", "title": "Set-size estimates use the true set numerosity", "statement": "When rules of a match or action set are updated, the numerosity used for their set-size estimate equals the sum of the numerosities of the set's members at that moment.", "quantifier": "all histories of covering and deletion before the update", "why_tests_cant": "Only visible when covering deletes one micro-copy of a rule that is in the current set.", "anchors": ["xcsf/clset.c:clset_cover,clset_pset_del,clset_update", "xcsf/cl.c:cl_update"]}
{"id": "C18", "title": "The prediction array is the fitness-weighted mean per action", "statement": "After building the prediction array the entry of action a and output j is the fitness-weighted mean of the j-th predictions of exactly those match-set rules advocating a, and 0 when their total fitness is 0; no write leaves the array for any rule action in range.", "quantifier": "all match sets, all dimensions, all doubles", "why_tests_cant": "Index arithmetic action*y_dim+j and accumulation order for all sizes.", "anchors": ["xcsf/pa.c:pa_build,pa_reset,pa_init"]}
{"id": "C19", "title": "Action selection returns a valid best / represented action", "statement": "Exploiting returns an action in range whose predicted value is not below any other's; exploring returns an action in range that some rule advocates.", "quantifier": "all prediction arrays without NaN, all random draws, all n_actions >= 1", "why_tests_cant": "Tie-breaking indexes a scratch array by a random integer: all draws must be covered.", "anchors": ["xcsf/pa.c:pa_best_action,pa_rand_action,pa_best_val,pa_val", "xcsf/xcs_rl.c:xcs_rl_decision"]}
{"id": "C20", "title": "Random integers stay in range", "statement": "A uniform integer drawn from [min,max) lies in [min,max) for every random draw and all int bounds min<max.", "quantifier": "all 52-bit generator outputs, all int pairs min<max", "why_tests_cant": "Off-by-one at the top of the range happens with probability 2^-52 per draw.", "anchors": ["xcsf/utils.c:rand_uniform,rand_uniform_int"]}
{"id": "C21", "title": "Ternary conditions: covering matches, generality is inclusion", "statement": "A covered ternary condition matches the input it covers; if one condition is reported more general than another then it matches every input the other matches and differs from it; reporting is asymmetric and transitive.", "quantifier": "all inputs, all bit widths, all strings, all random draws", "why_tests_cant": "Inclusion over an infinite input space.", "anchors": ["xcsf/cond_ternary.c:cond_ternary_cover,cond_ternary_match,cond_ternary_general", "xcsf/utils.h:float_to_binary"]}
{"id": "C22", "title": "Hyperrectangle covering matches", "statement": "A hyperrectangle created by covering, in centre-spread or unordered-bound form, matches the input it covers in double precision.", "quantifier": "all finite inputs within the configured input bounds, all spreads accepted by the setters, all random draws", "why_tests_cant": "Rounding of centre-spread arithmetic may exclude the point; tests sample.", "anchors": ["xcsf/cond_rectangle.c:cond_rectangle_init,cond_rectangle_cover,cond_rectangle_match,cond_rectangle_get_interval"]}
{"id": "C23", "title": "Hyperrectangle generality is inclusion", "statement": "If one hyperrectangle is reported more general than another it matches every input the other matches; the relation is reflexive and transitive.", "quantifier": "all finite bounds, all finite inputs", "why_tests_cant": "Universally quantified over inputs.", "anchors": ["xcsf/cond_rectangle.c:cond_rectangle_general,cond_rectangle_match"]}
{"id": "C24", "title": "Hyperellipsoid covering matches and generality is inclusion", "statement": "A covered hyperellipsoid matches its input; if one hyperellipsoid is reported more general than another it matches every input the other matches.", "quantifier": "all finite centres/spreads/inputs", "why_tests_cant": "Universally quantified over inputs; a counter-example needs a particular geometric configuration.", "anchors": ["xcsf/cond_ellipsoid.c:cond_ellipsoid_general,cond_ellipsoid_match,cond_ellipsoid_dist"]}
{"id": "C25", "title": "Mutation and crossover keep conditions well formed", "statement": "After any initialisation, covering, mutation or crossover, ternary strings contain only 0, 1, # and keep their length; hyperrectangle/hyperellipsoid parameters keep their length, centres stay within the configured input range and mutation never turns a number into NaN for finite parameters.", "quantifier": "all sequences of operators, all random draws", "why_tests_cant": "Invariant over unbounded operator sequences.", "anchors": ["xcsf/cond_ternary.c", "xcsf/cond_rectangle.c:cond_rectangle_mutate", "xcsf/cond_ellipsoid.c:cond_ellipsoid_mutate"]}
{"id": "C26", "title": "Self-adaptive mutation rates stay in their range", "statement": "After initialisation and any number of adaptation steps every mutation rate lies in [0.0005,1] for every adaptation scheme and is never NaN.", "quantifier": "all rate vectors in range, all random draws, any exp()/log()/cos() meeting a stated contract, any number of adaptations", "why_tests_cant": "Unbounded multiplicative random walk in floating point.", "anchors": ["xcsf/sam.c:sam_init,sam_adapt", "xcsf/utils.h:clamp", "xcsf/utils.c:rand_normal"]}
{"id": "C27", "title": "Rule actions are always valid", "statement": "Every rule's action, however created (random initialisation, covering, mutation), lies in [0,n_actions), so it always indexes inside the prediction array.", "quantifier": "all operator sequences, all random draws, all n_actions >= 1", "why_tests_cant": "Invariant across operators and generator outputs.", "anchors": ["xcsf/act_integer.c", "xcsf/rule_dgp.c:rule_dgp_act_compute", "xcsf/cl.c:cl_cover,cl_action"]}
{"id": "C28", "title": "Imported JSON rules cannot corrupt the system", "statement": "Inserting rules from a well-formed JSON document either fails with an error message or leaves a population satisfying the bookkeeping invariant with every rule action in range.", "quantifier": "all JSON documents accepted by the parser", "why_tests_cant": "Adversarial values (numerosity 0 or negative, action out of range, empty array) are outside the fixtures used by tests.", "anchors": ["xcsf/cl.c:cl_json_import_properties,cl_json_import_current", "xcsf/clset.c:clset_json_insert,clset_json_insert_cl", "xcsf/act_integer.c:act_integer_json_import"]}
{"id": "C29", "title": "Polynomial feature expansion fills its buffer exactly", "statement": "The number of features allocated for linear or quadratic predictions equals the number written for an input of any dimension, and the features are the offset, each input, and each product x_i*x_j for i<=j.", "quantifier": "all input dimensions", "why_tests_cant": "An off-by-one in a triangular count is a heap overflow for some dimension.", "anchors": ["xcsf/prediction.c:pred_transform_input", "xcsf/pred_nlms.c:pred_nlms_init", "xcsf/pred_rls.c:pred_rls_init"]}
{"id": "C30", "title": "Linear predictions are the inner product and NLMS moves towards the target", "statement": "An NLMS prediction is the inner product of weights and features, and an update with learning rate in (0,2) strictly reduces the error on the same input (exact arithmetic) and changes nothing else.", "quantifier": "all weights, inputs, targets, learning rates", "why_tests_cant": "Quantifies over all real vectors.", "anchors": ["xcsf/pred_nlms.c:pred_nlms_update,pred_nlms_compute"]}
{"id": "C31", "title": "RLS update contracts the error and keeps its gain matrix sound", "statement": "A recursive least squares update multiplies the error on the same input by lambda/(lambda + x'Px) and keeps the gain matrix symmetric, for exact arithmetic.", "quantifier": "all weights, symmetric gain matrices, inputs, forgetting factors", "why_tests_cant": "Quantifies over all matrices and vectors.", "anchors": ["xcsf/pred_rls.c:pred_rls_update,matrix_vector_multiply"]}
{"id": "C32", "title": "Constant prediction is a running then exponential mean", "statement": "A constant prediction equals the arithmetic mean of the targets seen during the warm-up phase (experience*BETA < 1) and afterwards moves by BETA of the residual; it stays within the hull of targets seen.", "quantifier": "all target sequences", "why_tests_cant": "Unbounded sequences.", "anchors": ["xcsf/pred_constant.c:pred_constant_update"]}
{"id": "C33", "title": "Store followed by retrieve restores the population", "statement": "Storing the population and later retrieving it yields the population as it was when stored: same rules in the same order with the same statistics and the same predictions.", "quantifier": "all populations and all prediction types", "why_tests_cant": "Equality of the complete state for every representation.", "anchors": ["xcsf/xcsf.c:xcsf_store_pset,xcsf_retrieve_pset", "xcsf/cl.c:cl_init_copy", "xcsf/pred_constant.c:pred_constant_copy"]}
{"id": "C34", "title": "Save followed by load restores the system", "statement": "Loading a saved file reproduces every parameter, every rule attribute and the rule order, consuming exactly the bytes written.", "quantifier": "all parameter values and populations", "why_tests_cant": "Field order mismatches between long writer/reader pairs show only when values differ.", "anchors": ["xcsf/xcsf.c:xcsf_save,xcsf_load", "xcsf/param.c:param_save,param_load", "xcsf/clset.c:clset_pset_save,clset_pset_load", "xcsf/cl.c:cl_save,cl_load", "xcsf/ea.c:ea_param_save,ea_param_load"]}
{"id": "C35", "title": "A loaded system can be used safely", "statement": "After loading a saved system into any existing system, predicting writes only inside the prediction array.", "quantifier": "all pairs of (existing configuration, saved configuration)", "why_tests_cant": "Needs a pair of configurations of different dimensions; Python pickling always creates such a pair.", "anchors": ["xcsf/xcsf.c:xcsf_load", "xcsf/pa.c:pa_init", "xcsf/pybind_wrapper.cpp:deserialize"]}
{"id": "C36", "title": "Setters accept exactly the documented ranges", "statement": "Every parameter setter stores the value and reports success exactly when the value is in the documented range, and otherwise reports an error and leaves the system unchanged.", "quantifier": "all int and double arguments including NaN and infinities", "why_tests_cant": "Special values are not sampled.", "anchors": ["xcsf/param.c:param_set_*", "xcsf/ea.c:ea_param_set_*", "xcsf/prediction.c:pred_param_set_*", "xcsf/condition.c:cond_param_set_*"]}
{"id": "C37", "title": "Names and codes of options correspond one to one", "statement": "For loss functions, conditions, predictions, actions, EA selection, neural layers and activations, converting a code to its name and back is the identity, distinct codes have distinct names, and unknown names are rejected.", "quantifier": "all codes and all strings", "why_tests_cant": "Prefix comparison with strncmp: the set of all strings is infinite.", "anchors": ["xcsf/loss.c:loss_type_as_int,loss_type_as_string", "xcsf/condition.c:condition_type_as_int", "xcsf/prediction.c", "xcsf/action.c", "xcsf/ea.c:ea_type_as_int", "xcsf/neural_layer.c:layer_type_as_int", "xcsf/neural_activations.c:neural_activation_as_int"]}
{"id": "C38", "title": "Losses are non-negative and vanish on perfect predictions", "statement": "Every loss is non-negative for finite arguments and 0 when prediction equals target (for one-hot: 0 iff the predicted class is the target class, else 1); MSE/MAE/RMSE vanish only then.", "quantifier": "all dimensions, all finite vectors, all huber deltas", "why_tests_cant": "Universally quantified over vectors.", "anchors": ["xcsf/loss.c"]}
{"id": "C39", "title": "GP trees stay syntactically valid", "statement": "Every tree produced by random generation, copying, crossover or mutation is a complete prefix expression whose symbols are in range, so evaluation never reads past the tree or its inputs.", "quantifier": "all trees, all random draws, all depth/constant settings accepted", "why_tests_cant": "Structural invariant over unbounded operator sequences.", "anchors": ["xcsf/gp.c:tree_grow,tree_rand,tree_eval,tree_crossover,tree_mutate,tree_traverse"]}
{"id": "C40", "title": "Dynamical GP graphs stay in range", "statement": "Node states and outputs of a dynamical GP graph always lie in [0,1], connections always index an existing input or node, and the number of update cycles is in [1,max_t], after initialisation, mutation and any number of updates.", "quantifier": "all graphs, all inputs, all random draws", "why_tests_cant": "Invariant over unbounded operator sequences and real inputs.", "anchors": ["xcsf/dgp.c:graph_rand,graph_update,graph_mutate,graph_json_import_connectivity"]}
{"id": "C41", "title": "Rule covering delivers a matching rule with the requested action", "statement": "Covering with a rule-level DGP or neural representation returns only when the rule both matches the input and advocates the requested action.", "quantifier": "all inputs, actions and random draws", "why_tests_cant": "Depends on the random graph drawn; tests rarely hit the divergent branch.", "anchors": ["xcsf/rule_dgp.c:rule_dgp_act_cover", "xcsf/rule_neural.c:rule_neural_act_cover", "xcsf/cl.c:cl_cover"]}
{"id": "C42", "title": "Neural connectivity mutation never disconnects", "statement": "After connectivity mutation every neuron has at least one active input connection, every input feeds at least one neuron, inactive weights are zero and the recorded number of active weights equals the true one.", "quantifier": "all layers, all random draws", "why_tests_cant": "Repair step with random choices.", "anchors": ["xcsf/neural_layer.c:layer_mutate_connectivity,layer_ensure_input_representation,layer_weight_clamp,layer_calc_n_active"]}
{"id": "C43", "title": "Neuron growth respects limits", "statement": "Neuron-count mutation keeps the number of neurons in [1,max] and preserves all surviving weights.", "quantifier": "all layers, all random draws", "why_tests_cant": "Clamp interplay over all sizes.", "anchors": ["xcsf/neural_layer.c:layer_mutate_neurons,layer_add_neurons"]}
{"id": "C44", "title": "Layer lists stay consistent", "statement": "Inserting or removing a layer at any valid position keeps the doubly linked layer list consistent and the network's size, head, tail and input/output counts agree with it; invalid positions are rejected.", "quantifier": "all networks and positions", "why_tests_cant": "Pointer manipulation for every position class.", "anchors": ["xcsf/neural.c:neural_insert,neural_remove,neural_push,neural_pop,neural_mutate"]}
{"id": "C45", "title": "Neural outputs lie in their activation's range", "statement": "Logistic outputs are in [0,1], tanh and loggy in [-1,1], rectifier outputs >= 0, softmax outputs in [0,1], for any finite state, and no layer output is NaN.", "quantifier": "all finite weights and inputs, any libm meeting a stated range contract", "why_tests_cant": "All doubles.", "anchors": ["xcsf/neural_activations.c", "xcsf/neural_layer_softmax.c:neural_layer_softmax_forward"]}
{"id": "C46", "title": "Activation gradients are the derivatives", "statement": "The gradient used in training for each activation function is the mathematical derivative of that function at every state where it is differentiable.", "quantifier": "all real states, all activation functions", "why_tests_cant": "Requires real analysis; numeric checks sample.", "anchors": ["xcsf/neural_activations.h", "xcsf/neural_activations.c:neural_gradient"]}
{"id": "C47", "title": "Pooling and resampling index safely and compute what they say", "statement": "Average pooling returns the channel means, max pooling the maximum over each window with backward routing the gradient to the winning input, upsampling replicates each input stride x stride times and its backward sums them; all reads and writes are in range.", "quantifier": "all dimensions, strides, sizes and pads accepted by construction, all inputs", "why_tests_cant": "Index arithmetic over all geometries.", "anchors": ["xcsf/neural_layer_avgpool.c", "xcsf/neural_layer_maxpool.c:max_pool", "xcsf/neural_layer_upsample.c"]}
{"id": "C48", "title": "Convolution computes the zero-padded correlation", "statement": "A convolutional layer computes the zero-padded strided correlation of its input with each filter for every size, stride and padding, reading only inside its buffers; col2im is the adjoint of im2col.", "quantifier": "all geometries, all inputs and filters", "why_tests_cant": "Index arithmetic over all geometries; adjointness quantifies over all vectors.", "anchors": ["xcsf/image.c:im2col,col2im", "xcsf/neural_layer_convolutional.c:neural_layer_convolutional_forward"]}
{"id": "C49", "title": "Matrix kernels compute the specified products", "statement": "The GEMM kernel computes C := alpha*op(A)*op(B) + beta*C for all four transpose combinations, touching only the addressed entries; the vector kernels compute axpy, scale, dot and fill with strides as specified.", "quantifier": "all dimensions, leading dimensions and entries", "why_tests_cant": "Loop-nest correctness for all sizes.", "anchors": ["xcsf/blas.c"]}
{"id": "C50", "title": "Backpropagation is the gradient", "statement": "For a fully connected layer the backward pass accumulates exactly the partial derivatives of the loss with respect to weights, biases and inputs.", "quantifier": "all layer sizes, weights, inputs, output deltas (exact arithmetic)", "why_tests_cant": "Calculus over all real vectors.", "anchors": ["xcsf/neural_layer_connected.c:neural_layer_connected_backward"]}
{"id": "C51", "title": "Multiplexer environment is correct", "statement": "The multiplexer pays 1 exactly when the chosen action equals the addressed data bit, the address always falls inside the state, and the problem length is pos + 2^pos.", "quantifier": "all configured lengths, all random states, all actions", "why_tests_cant": "All state bits and lengths.", "anchors": ["xcsf/env_mux.c"]}
{"id": "C52", "title": "Maze environment stays inside its grid", "statement": "Loading and moving in a maze never accesses a cell outside the grid; moves wrap toroidally; obstacles block; food ends the trial; reset places the agent on an empty cell.", "quantifier": "all maze files, all positions and actions, all random draws", "why_tests_cant": "All maze shapes and sizes including maximal ones.", "anchors": ["xcsf/env_maze.c"]}
{"id": "C53", "title": "Multi-step learning uses the discounted one-step target", "statement": "In a multi-step trial the previous action set is updated exactly once per step towards previous reward + GAMMA * best predicted value, and the final action set towards the final reward; the trial ends at a terminal state or after TELETRANSPORTATION steps.", "quantifier": "all environments, all step counts", "why_tests_cant": "Trace property over unbounded trials.", "anchors": ["xcsf/xcs_rl.c:xcs_rl_trial,xcs_rl_update,xcs_rl_end_step"]}
{"id": "C54", "title": "Batch training visits the intended samples and returns the mean loss", "statement": "Supervised fitting uses rows start, start+1, ... modulo the sample count without shuffling, rows in range with shuffling, and returns the mean of the per-trial losses; scoring with N limits visits rows in range and returns the mean over the visited rows.", "quantifier": "all data sizes, starts, trial counts, random draws", "why_tests_cant": "All integer combinations.", "anchors": ["xcsf/xcs_supervised.c:xcs_supervised_sample,xcs_supervised_fit,xcs_supervised_score,xcs_supervised_score_n"]}
{"id": "C55", "title": "Python fit runs the requested number of trials", "statement": "fit(X, y) from Python executes exactly MAX_TRIALS training trials (absent early stopping).", "quantifier": "all MAX_TRIALS and PERF_TRIALS accepted by the setters", "why_tests_cant": "Rounding of the epoch count for non-multiples.", "anchors": ["xcsf/pybind_wrapper.cpp:fit"]}
{"id": "C56", "title": "User-supplied cover arrays stay owned by the user", "statement": "Passing cover values to predict/score neither leaks or frees memory it does not own nor modifies the caller's array, and leaves the system able to be freed.", "quantifier": "all sequences of Python calls", "why_tests_cant": "Ownership across call sequences.", "anchors": ["xcsf/pybind_wrapper.cpp:set_cover,get_cover,predict,score"]}
{"id": "C57", "title": "Early stopping keeps the best population", "statement": "Early stopping stops exactly when the monitored error has not improved by min_delta within patience trials, and with restore enabled the population afterwards is the one stored at the best error.", "quantifier": "all sequences of errors", "why_tests_cant": "Sequence property.", "anchors": ["xcsf/pybind_callback_earlystop.hpp"]}
{"id": "C58", "title": "Clock and counters do not overflow", "statement": "Computing the EA trigger time of a set never overflows a C int for any number of training trials up to INT_MAX.", "quantifier": "all times and numerosities reachable under accepted parameters", "why_tests_cant": "Needs millions of trials and a converged population.", "anchors": ["xcsf/clset.c:clset_total_time", "xcsf/ea.c:ea"]}
{"id": "C59", "title": "Averages of observed quantities stay in their hull", "statement": "The running error, set-size and generality averages reported by the system always lie between the smallest and largest value observed (including the initial one) when BETA is in [0,1].", "quantifier": "all observation sequences", "why_tests_cant": "Unbounded sequences of updates.", "anchors": ["xcsf/clset.c:clset_match,clset_action", "xcsf/xcs_supervised.c:xcs_supervised_fit", "xcsf/xcs_rl.c:xcs_rl_error", "xcsf/cl.c:cl_update"]}
{"id": "C60", "title": "Reported match fraction is a fraction", "statement": "The generality reported by the system is the match fraction of a rule of the population: the largest among the experienced accurate rules, or else that of the first experienced rule of lowest error; it and its running average always lie in [0,1].", "quantifier": "all populations and all sequences of trials", "why_tests_cant": "Depends on counters accumulated over unbounded runs; tests look at a few populations.", "anchors": ["xcsf/clset.c:clset_mfrac", "xcsf/cl.c:cl_mfrac,cl_match", "xcsf/clset.c:clset_match"]}
{"id": "C61", "title": "Defaults and setters keep every parameter in its range", "statement": "param_init with positive dimensions gives every parameter a value in its documented range whatever memory held before, and any sequence of setter calls, valid or not, keeps every parameter in range and the called loss function equal to the selected one; such parameters meet the assumptions the population theorems make.", "quantifier": "all previous memory contents, all dimensions, all sequences of setter calls with arbitrary arguments", "why_tests_cant": "All call sequences, and contents of uninitialised memory.", "anchors": ["xcsf/param.c:param_init", "xcsf/ea.c:ea_param_defaults", "xcsf/condition.c:cond_param_defaults", "xcsf/prediction.c:pred_param_defaults"]}
{"id": "C62", "title": "Python array arguments are checked before use", "statement": "Arrays accepted by fit, score and predict have one row per sample and the configured numbers of columns, so that every row read lies inside the array; other arrays raise an exception.", "quantifier": "all array shapes and contents, all dimensions", "why_tests_cant": "Shapes are unbounded and the reads of a wrongly shaped array stay silent in C.", "anchors": ["xcsf/pybind_wrapper.cpp:load_input,predict", "xcsf/xcs_supervised.c:xcs_supervised_fit,xcs_supervised_predict"]}
{"id": "C63", "title": "score with a limit looks at that many samples", "statement": "score(X, y, N) evaluates min(N, number of samples) rows, all within range, and returns their mean loss; without a limit it evaluates every row once, in order.", "quantifier": "all data sets, limits, populations and random draws", "why_tests_cant": "The limit is unbounded, and which rows were sampled cannot be observed from outside.", "anchors": ["xcsf/pybind_wrapper.cpp:score", "xcsf/xcs_supervised.c:xcs_supervised_score,xcs_supervised_score_n"]}
{"id": "C64", "title": "Checkpoints keep the best system", "statement": "With save_best_only the checkpoint file ends up holding the system with the lowest monitored error observed during the run; otherwise it holds the final system. Checkpointing never changes the system.", "quantifier": "all sequences of errors, all save frequencies, all runs of fit", "why_tests_cant": "Depends on the whole sequence of errors of a stochastic learning run.", "anchors": ["xcsf/pybind_callback_checkpoint.h:run,finish", "xcsf/pybind_wrapper.cpp:callbacks_run,callbacks_finish"]}
{"id": "C65", "title": "The weight update is a limited gradient step", "statement": "Updating a connected or convolutional layer moves every active weight and every bias by the learning rate times its accumulated update (with weight decay), limited to [-10,10]; keeps momentum times that update; sets inactive weights to zero; and changes nothing else. With gradient descent off or a rate that is not positive nothing changes.", "quantifier": "all layers, weights, updates, rates, momentum and decay", "why_tests_cant": "Continuous state; the order of decay, step and momentum is only visible over several updates.", "anchors": ["xcsf/neural_layer_connected.c:neural_layer_connected_update", "xcsf/neural_layer_convolutional.c:neural_layer_convolutional_update", "xcsf/neural_layer.c:layer_weight_clamp", "xcsf/blas.c:blas_axpy,blas_scal"]}
{"id": "C66", "title": "Networks keep their shape through evolution and learning", "statement": "A network created from acceptable layer parameters stays chained: every layer takes as many inputs as the layer before it has outputs, all arrays have the lengths the fields say, active weights are counted and the numbers of neurons and weights stay within the limits. This holds after any sequence of copying, randomising, mutating (neurons added and removed, the following layers resized), propagating and learning, and none of these reads or writes outside an array.", "quantifier": "all lists of connected, softmax, dropout and noise layers, all histories, inputs, targets and random tapes", "why_tests_cant": "A stale size is only visible after a particular sequence of structural mutations, and an out-of-bounds read usually goes unnoticed.", "anchors": ["xcsf/neural.c:neural_create,neural_copy,neural_rand,neural_mutate,neural_resize,neural_propagate,neural_learn,neural_output", "xcsf/neural_layer.c:layer_add_neurons", "xcsf/neural_layer_connected.c:neural_layer_connected_resize", "xcsf/pred_neural.c:pred_neural_compute,pred_neural_update"]}
{"id": "C67", "title": "Crossover recombines and mutation perturbs by the rate", "statement": "Uniform crossover of two conditions keeps or exchanges each character or bound independently, never mixing positions or changing mutation rates, and happens only when the crossover probability is above zero. Mutation of a ternary string only turns a fixed character into a wildcard or a wildcard into a bit; mutation of a bound, centre, spread or learning rate adds a normal variate scaled by the adapted rate and corrects the result to its range; rates themselves follow their scheme. The returned flag says whether anything changed. Updating a condition moves centres towards the input by the learning rate and touches nothing else.", "quantifier": "all conditions of the right dimensions, all rates in range, all random tapes and generator states", "why_tests_cant": "Tests check that something changes for one seed; exchanging the wrong positions, or reporting a change that did not happen, only shifts the statistics of the search.", "anchors": ["xcsf/cond_ternary.c:cond_ternary_crossover,cond_ternary_mutate", "xcsf/cond_rectangle.c:cond_rectangle_crossover,cond_rectangle_mutate,cond_rectangle_update", "xcsf/cond_ellipsoid.c:cond_ellipsoid_crossover,cond_ellipsoid_mutate,cond_ellipsoid_update", "xcsf/act_integer.c:act_integer_mutate", "xcsf/pred_nlms.c:pred_nlms_mutate", "xcsf/sam.c:sam_adapt"]}
{"id": "C68", "title": "A network is trained by the gradient of its error", "statement": "In exact arithmetic, propagating an input through a network of connected layers and learning a target adds to the accumulated update of every weight and bias of every layer exactly the partial derivative, with respect to that weight or bias, of minus half the squared error of the whole network, and then applies each layer's update once. The forward pass changes nothing but states and outputs.", "quantifier": "all depths, layer sizes, weights, activation functions, inputs and targets for which no neuron is at the limits of its state or at a kink of its activation function", "why_tests_cant": "A backward pass that uses the wrong layer's input, or forgets to clear an error, still reduces the loss in most tests; only agreement with the derivative at every depth shows it is right.", "anchors": ["xcsf/neural.c:neural_propagate,neural_learn", "xcsf/neural_layer_connected.c:neural_layer_connected_forward,neural_layer_connected_backward,neural_layer_connected_update"]}
{"id": "C69", "title": "What networks compute, and when they report a change", "statement": "Propagating an input makes each layer work on the outputs of the layer before it: connected layers give the activation of the clamped weighted sum, dropout and noise pass their input unchanged outside of training, softmax gives normalised exponentials relative to the largest input; nothing but states and outputs changes and no random number is drawn outside of training. A neural prediction is the outputs of the last layer in order, a neural condition matches when the first output is above one half, the size of a network is its number of active weights. Mutation returns false only if every layer is the same apart from its mutation rates, and (without evolving connectivity) true only if some layer changed.", "quantifier": "all networks of connected, softmax, dropout and noise layers (the size and a flag of false: all modelled layers), inputs, and random tapes", "why_tests_cant": "Tests compare a few forward passes with stored numbers; a layer fed from the wrong place, or a mutation not reported, only shows up as a worse search.", "anchors": ["xcsf/neural.c:neural_propagate,neural_output,neural_mutate,neural_size", "xcsf/neural_layer_connected.c:neural_layer_connected_forward", "xcsf/neural_layer_softmax.c:neural_layer_softmax_forward", "xcsf/neural_layer_dropout.c:neural_layer_dropout_forward", "xcsf/neural_layer_noise.c:neural_layer_noise_forward", "xcsf/pred_neural.c:pred_neural_compute", "xcsf/cond_neural.c:cond_neural_match"]}
{"id": "C70", "title": "CSV data sets are read as written", "statement": "Reading a CSV data set yields the number of its lines as the number of samples, the number of fields of its first line as the number of columns, and at position i * columns + j the value of field j of line i. Inputs and targets of the same index belong together, every index below the number of samples can be read, and a malformed file ends with an error message.", "quantifier": "all files without NUL bytes, all values of strtod", "why_tests_cant": "Test files are small and clean; empty lines, long lines, missing fields and files of different lengths are what users have.", "anchors": ["xcsf/env_csv.c:env_csv_samples,env_csv_dim,env_csv_read_data,env_csv_read,env_csv_input_read", "xcsf/xcs_supervised.c:xcs_supervised_fit"]}
{"id": "C71", "title": "Configuration files are read without comments and blanks", "statement": "Reading a configuration file passes exactly its text without comments (from # to the end of the line), blanks and line ends to the parameter import, whatever the length of its lines, and never writes outside its buffers.", "quantifier": "all files", "why_tests_cant": "The shipped files have short lines and end in a newline; an editor that omits it, or a long comment, changes what is read or corrupts the stack.", "anchors": ["xcsf/config.c:config_trim,config_read"]}
{"id": "C72", "title": "Networks in a population can be deepened and turned into classifiers", "statement": "pred_expand puts one new hidden layer before the output layer of the prediction network of every rule, and ae_to_classifier replaces the last n_del layers by a linear layer and a softmax layer with one neuron per class. The networks stay sound, all other layers are untouched, every rule restarts with initial fitness, error and experience, prediction arrays get the new size, and everything else is unchanged. The system then goes on learning, covering included.", "quantifier": "all populations of neural predictions of connected, softmax, dropout and noise layers within the limits, all parameters, all random sequences", "why_tests_cant": "The one test converts a single freshly made rule. Networks of one layer, evolved networks and the rules made after the conversion are not exercised.", "anchors": ["xcsf/xcsf.c:xcsf_pred_expand,xcsf_ae_to_classifier", "xcsf/pred_neural.c:pred_neural_expand,pred_neural_ae_to_classifier", "xcsf/neural.c:neural_insert,neural_push,neural_pop,neural_resize"]}
{"id": "C73", "title": "Systems whose conditions, actions and predictions are networks stay sound", "statement": "In a system of neural conditions, actions and predictions every rule always holds three sound networks with the number of inputs and outputs of the configuration, no operation on the population faults, and the counters and limits of C01 and C02 hold. A neural action is the first index of the largest output; covering an action yields a network that proposes it, and still does when asked again; whether the system explores makes no difference to networks without dropout and noise.", "quantifier": "all configurations within the limits, all sequences of operations, environments, data and random sequences; networks of connected and softmax layers with a fixed number of neurons (conditions: connected layers)", "why_tests_cant": "The soundness of every network depends on the whole history of covering, mutation, copying, deletion and learning; the tests make single networks.", "anchors": ["xcsf/act_neural.c:act_neural_init,act_neural_compute,act_neural_cover,act_neural_mutate,act_neural_copy", "xcsf/cond_neural.c:cond_neural_cover,cond_neural_match,cond_neural_mutate", "xcsf/pred_neural.c:pred_neural_compute,pred_neural_update,pred_neural_mutate", "xcsf/clset.c:clset_match,clset_update"]}
{"id": "C74", "title": "Recurrent layers compute, learn, evolve and survive files as connected layers do", "statement": "Whatever is done to a recurrent layer (making, passes, learning, randomising, mutation, copying), it stays well formed: its three connected layers fit each other and nothing is accessed out of bounds. A forward pass computes state' = in(x) + self(last output) and output' = out(state'). A copy computes what the original computes; the backward pass computes the gradient; the evolved rate of learning is in its range and learning continues; a layer written to a file and read again works.", "quantifier": "all parameters in the limits, sequences of operations, inputs, errors, generators and math libraries", "why_tests_cant": "The test of the recurrent layer makes one layer and runs one pass; it neither copies, saves, mutates nor learns after growing.", "anchors": ["xcsf/neural_layer_recurrent.c:neural_layer_recurrent_init,neural_layer_recurrent_copy,neural_layer_recurrent_forward,neural_layer_recurrent_backward,neural_layer_recurrent_update,neural_layer_recurrent_mutate,neural_layer_recurrent_load"]}
{"id": "C75", "title": "LSTM layers compute the gates, train all weights and survive copies and files", "statement": "Whatever is done to an LSTM layer (making, passes, learning, randomising, mutation, copying), its eight connected layers and thirteen arrays fit each other and nothing is accessed out of bounds. A forward pass computes the equations of the gates f, i, g, o, the cell c' = f*c + i*g and the output o*act(c'). The backward pass changes the updates of all weights; a copy and a layer read from a file compute what the original computes.", "quantifier": "all parameters in the limits, sequences of operations, inputs, errors, generators and math libraries", "why_tests_cant": "The test of the LSTM layer compares one forward and one backward pass from zero states, where arrays that are never written make no difference.", "anchors": ["xcsf/neural_layer_lstm.c:neural_layer_lstm_init,neural_layer_lstm_copy,neural_layer_lstm_forward,neural_layer_lstm_backward,neural_layer_lstm_update,neural_layer_lstm_mutate,neural_layer_lstm_save,neural_layer_lstm_load"]}
{"id": "C76", "title": "Parameters written as JSON and read into any system are the same again", "statement": "Exporting the parameters succeeds, changes neither the parameters nor the state of the generator, and importing the document into a system with whatever parameters gives it every exported parameter (integers, doubles, booleans, names of functions and types, population file, layers of networks) and leaves the others as they were.", "quantifier": "all parameters that the setters accept, all systems that read the document, all generators and math libraries", "why_tests_cant": "The Python tests compare a few default settings; infinities, long file names, rarely exported parameters and the state of the generator before and after are not looked at.", "anchors": ["xcsf/param.c:param_json_export,param_json_import", "xcsf/ea.c:ea_param_json_export,ea_param_json_import", "xcsf/condition.c:cond_param_json_export,cond_param_json_import", "xcsf/prediction.c:pred_param_json_export,pred_param_json_import", "xcsf/action.c:action_param_json_export,action_param_json_import", "xcsf/neural_layer_args.c:layer_args_json_export,layer_args_json_import,layer_args_validate"]}
{"id": "C77", "title": "Whatever document is imported, parameters stay in range and agree with the dimensions", "statement": "After importing any document that is accepted, every parameter is in its documented range. A Python object made with any keywords has components for its dimensions: GP trees and DGP graphs see all x_dim inputs, and networks whose layers are not given have x_dim inputs and the outputs the system needs.", "quantifier": "all documents (keywords), math libraries and generators", "why_tests_cant": "There are infinitely many documents; the tests of tree_gp and dgp conditions use the C functions with the dimensions set directly, not the Python constructor.", "anchors": ["xcsf/param.c:param_json_import", "xcsf/pybind_wrapper.cpp:XCS,reset,set_params", "xcsf/cond_gp.c:cond_gp_param_defaults", "xcsf/cond_dgp.c:cond_dgp_param_defaults"]}
{"id": "C78", "title": "A population written as JSON and inserted again is the same", "statement": "Writing the rules of a set as JSON changes nothing, and inserting the document into any system with the same parameters and enough room puts the same rules, in the same order, at the front of its population: every attribute, the condition, the action and the prediction are those of the rules written, and nothing else changes.", "quantifier": "all populations of rules with rectangles, ellipsoids, ternary or dummy conditions, integer actions and constant, NLMS or RLS predictions; all systems they are inserted into, all generators", "why_tests_cant": "The Python tests insert one or two rules and look at the values they wrote themselves; rules of all types with whatever values, numerosities and orders, and the parts that are not written, are not compared.", "anchors": ["xcsf/clset.c:clset_json_export,clset_json_insert,clset_json_insert_cl", "xcsf/cl.c:cl_json_export,cl_json_import", "xcsf/cond_rectangle.c:cond_rectangle_json_export,cond_rectangle_json_import", "xcsf/cond_ellipsoid.c:cond_ellipsoid_json_export", "xcsf/cond_ternary.c:cond_ternary_json_export", "xcsf/act_integer.c:act_integer_json_export", "xcsf/pred_nlms.c:pred_nlms_json_export", "xcsf/pred_rls.c:pred_rls_json_export", "xcsf/pred_constant.c:pred_constant_json_export"]}
{"id": "C79", "title": "What is reported about the rules of a set is their mean", "statement": "The statistics of a set change nothing: the mean numbers of layers, neurons and connections of the networks of its rules are the exact mean, rounded once, between the least and the greatest of them, zero for an empty set or another type of condition or prediction; mean sizes likewise; mean rates of learning stay between zero and one.", "quantifier": "all populations with neural conditions, rules or predictions of whatever depth, all sets, all positions of layers (also those that some networks do not have)", "why_tests_cant": "The tests ask for the mean size of small populations of one shape; populations large enough to overflow the sums, networks of different depth, empty sets and positions beyond the last layer are not tried.", "anchors": ["xcsf/clset_neural.c:clset_mean_cond_layers,clset_mean_cond_neurons,clset_mean_cond_connections,clset_mean_pred_neurons,clset_mean_pred_layers,clset_mean_pred_eta,clset_mean_pred_connections", "xcsf/clset.c:clset_mean_cond_size,clset_mean_pred_size", "xcsf/cond_neural.c:cond_neural_neurons,cond_neural_connections,cond_neural_layers", "xcsf/pred_neural.c:pred_neural_eta,pred_neural_neurons,pred_neural_connections,pred_neural_layers"]}
{"id": "C80", "title": "A DGP graph written as JSON and inserted again is the same graph", "statement": "Writing the graph of a rule as JSON and reading it gives the same graph: nodes, cycles, functions, connections, initial and current states, rates. A document is refused exactly if a number, name or length in it is wrong, and then nothing else happens; a graph that is accepted is a valid graph that can be matched, copied and mutated like any other; what a document leaves out is drawn at random.", "quantifier": "all valid graphs of whatever size; all documents, with any members left out or of another type; all states of the generator", "why_tests_cant": "One test writes and reads a graph that has all members and the configured size; a document with another number of nodes is accepted and overflows the heap only when the rule is copied later.", "anchors": ["xcsf/dgp.c:graph_json_export,graph_json_import,graph_json_import_current_state,graph_json_import_initial_state,graph_json_import_functions,graph_json_import_connectivity,function_string,function_int", "xcsf/cond_dgp.c:cond_dgp_json_export,cond_dgp_json_import", "xcsf/rule_dgp.c:rule_dgp_cond_json_export,rule_dgp_cond_json_import"]}
