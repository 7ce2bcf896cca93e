# A Rocq model of XCSF

Target: Rocq/Coq 8.16.1 with Flocq. The model lives in `rocq/theories`. The C and C++
sources are in `/repo/xcsf`; they are read as text and never built or run.

Sections: 1 architecture, 2 files, 3 which code is modelled and which is not, 4
simplifications, 5 assumptions made by theorems, 6 the properties one by one, 7 findings
(places where a property does not hold of the code), 8 trusted base, 9 mutation testing.

## 1. Architecture of the model

* **Outcomes** (`Outcome.v`). A modelled C function returns `Ok v`, `Exit` (the code called
  `exit(EXIT_FAILURE)`), `UB reason` (`OutOfBounds`, `NullDeref`, `UseAfterFree`,
  `DoubleFree`, `BadCast`, `DivByZero`, `IntOverflow`, `Uninit`) or `OutOfFuel` (a loop the
  model had to cut). Every theorem states which outcomes are possible. A theorem about a loop
  that may not end in C says so (`FO`, "fuel may run out") instead of hiding it.
* **Doubles** (`F64.v`). C `double` is Flocq's `binary_float 53 1024`, round to nearest even.
  The operations are executable, and `B2R` gives their real value. NaN payloads and the sign
  of NaN are not represented.
* **Exact arithmetic.** Code that is pure arithmetic (blas.c, predictions, activations,
  layers) is written once for any number type (`num`, `arith`). It is used with doubles (what
  runs) and with the reals (for statements that only hold without rounding: gradients,
  contraction of errors, sums in any order). A theorem in exact arithmetic is always
  accompanied by one that ties the double-precision code to the same definition.
* **libm** (`Rng.v`, record `libm`). `exp log sin cos tanh pow expm1 log1p` are arbitrary
  functions. What a theorem needs of them is a hypothesis of that theorem (section 5).
  `sqrt fabs floor ceil` are defined, not assumed.
* **Random numbers** (`Rng.v`). The generator is an arbitrary infinite tape of draws. A draw
  is an odd multiple of 2^-52 in (0,1), as produced by dSFMT's open-open mode. The static
  variables of `rand_normal` are part of the generator state. Theorems quantify over every
  tape.
* **Arrays** (`Arr.v`). An array is the list of its elements. Every read and write is checked
  against the length of the allocation.
* **Population** (`Pop.v`). Rules (struct Cl) live in a heap of locations; a freed location
  makes every later access `UB`. Sets are lists of locations with the counters `size` and
  `num` of struct Set. A state monad carries heap, sets, statistics and generator.
* **Vtables** (`Pop.v`, `Comp.v`). The population model is parametrised by a record of
  functions (`vtab`), one per entry of the C vtables. `Comp.v` assembles such a record from a
  condition, an action and a prediction; `PopSpec.v` states the contract (`vt_ok`), and
  `CompFacts.v`, `PropGp.v`, `PropDgp.v`, ... prove it of the modelled representations.
* **Pointer-level lists** (`Llist.v`). The doubly linked list of neural layers is modelled
  with explicit cells and pointers.
* **Files** (`File.v`). A file is the sequence of the typed elements that `fwrite` wrote.
* **JSON** (`Json.v`). A document is the tree that `cJSON_Parse` builds.

Conventions. `Foo.v` holds definitions, each with a comment citing the C file and lines.
`FooFacts.v`, `PropFoo.v` hold lemmas. `Cnn.v` holds the theorems of property Cnn and nothing
else: each is proved by `exact`, followed by `Print Assumptions`, with a concrete `Example`
that meets its hypotheses. Some examples need a longer construction; those are in
`Demo.v`, `DemoEx.v`, `PropJsonEx.v`, `FileOver.v`.

## 2. Files

| File | Contents |
|------|----------|
| `Outcome.v` | Outcomes of modelled C functions |
| `F64.v` | C [double]: IEEE-754 binary64, round to nearest even |
| `Rng.v` | Random numbers |
| `F64Facts.v` | Facts about the double operations of [F64] |
| `RngFacts.v` | Facts about random draws |
| `Pop.v` | The population: rules, sets, and the operations of cl.c and clset.c |
| `F64Bounds.v` | Range facts about double expressions used by the learning rules |
| `PopSpec.v` | Specification vocabulary for the population model |
| `PopInv.v` | Preservation of the bookkeeping invariant by the elementary heap/set changes |
| `PopSel.v` | Roulette wheels, tournaments and the never-matching scan |
| `PopDel.v` | Deletion and the population size limit |
| `PopCover.v` | Validation, action coverage and covering |
| `PopMatch.v` | Matching and the covering loop |
| `PopMset.v` | Building the match set and the action set |
| `PopUpdate.v` | Updating the rules of a set: statistics, fitness, set subsumption |
| `PopEA.v` | The evolutionary algorithm |
| `PopPA.v` | The prediction array and action selection |
| `PopTrial.v` | Supervised trials |
| `PopFit.v` | Batch operations: supervised fit, predict, score |
| `PopRL.v` | Reinforcement-learning trials |
| `PopOps.v` | Creating, storing, retrieving and freeing the population, inserting rules, and arbitrary sequences of public operations |
| `PopSeq.v` | Arbitrary sequences of public operations |
| `PopClock.v` | Time stamps and matching counters of all rules, through every operation |
| `Clock.v` | The EA trigger in C int arithmetic |
| `PopKeep.v` | The stored population is not touched by training, predicting or inserting |
| `Arr.v` | C arrays and counted loops |
| `Sam.v` | Self-adaptive mutation rates: /repo/xcsf/sam.c |
| `Cond.v` | Conditions and integer actions: /repo/xcsf/cond_dummy.c, cond_ternary.c, cond_rectangle.c, cond_ellipsoid.c, act_integer.c, utils.h:96-128 |
| `Blas.v` | Linear algebra: /repo/xcsf/blas.c |
| `Pred.v` | Predictions: /repo/xcsf/pred_constant.c, pred_nlms.c, pred_rls.c, prediction.c:264-286 |
| `ArrFacts.v` | Array accesses, loops and total random computations |
| `SamFacts.v` | Self-adaptive mutation rates stay in [MU_EPSILON, 1] |
| `TernFacts.v` | Ternary conditions |
| `RectFacts.v` | Hyperrectangle conditions |
| `EllipFacts.v` | Hyperellipsoid conditions and integer actions |
| `BlasFacts.v` | What the kernels of blas.c compute, for any numbers |
| `PredFacts.v` | What the predictions compute, for any numbers |
| `Exact.v` | The same code in exact arithmetic |
| `Comp.v` | Rules assembled from a condition, an action and a prediction |
| `CompFacts.v` | The contracts of the parts, and that every combination of parts meets [vt_ok] |
| `Loss.v` | Model of loss.c: error functions of a prediction and a target |
| `LossFacts.v` | Facts about the loss functions (C38) |
| `Demo.v` | Small concrete systems, used to show that the hypotheses of the theorems can be met |
| `DemoEx.v` | Concrete states in which the hypotheses of the step theorems hold |
| `PropPop.v` | Consequences of the population lemmas, in the form the property theorems use |
| `PropTrial.v` | Properties of the steps of a trial, in the form the property theorems use |
| `PropFrame.v` | What predicting and reproducing without change leave alone (C15, C16) |
| `PropSel.v` | Selection, the prediction array, action choice and the numerosity used in updates (C06, C08, C17, C18, C19), in the form the property theorems use |
| `PropRef.v` | Properties that do not hold of the code as stated: concrete executions |
| `RandInt.v` | Random integers: when the upper bound is exclusive, and that every value occurs |
| `PropTern.v` | Ternary conditions: generality is exactly strict inclusion (C21) |
| `PropBox.v` | Hyperrectangles and hyperellipsoids: covering, generality (C22-C24) |
| `PropGrow.v` | Conditions, actions and mutation rates under any sequence of operators (C25-C27) |
| `PropRefCond.v` | Counterexamples to properties of conditions (C21, C24) |
| `PropPred.v` | Predictions (C29-C32) and matrix kernels (C49) |
| `PropStore.v` | C33: storing the population and going back to it |
| `PropMulti.v` | Batch training and multi-step trials: rows visited, steps taken, a stale update |
| `PropClock.v` | No overflow in the EA trigger: support for C58 |
| `PropAvg.v` | Running averages and the reported match fraction |
| `Env.v` | Built-in problem environments: the real multiplexer and the mazes |
| `EnvFacts.v` | The multiplexer and the mazes: lemmas |
| `PropEnv.v` | Loading mazes; trials of the multiplexer |
| `Names.v` | Names and codes of the selectable options |
| `Param.v` | Parameters and their setters |
| `PropNames.v` | Lemmas for C37: names and codes |
| `PropParam.v` | Lemmas for C36 and C61: parameter setters and default values |
| `PopTick.v` | The clock counts training trials exactly |
| `PropCover.v` | Python arrays as arguments, ownership of the cover array, checkpoints |
| `PropEarly.v` | Early stopping |
| `PropPy.v` | Python fitting: number of trials, early stopping |
| `PropPyRef.v` | Counterexamples for the Python interface |
| `Py.v` | The Python wrapper: supervised fitting in epochs, callbacks, ownership of the cover array. pybind_wrapper.cpp, pybind_callback_earlystop.h, pybind_callback_checkpoint.h |
| `Gp.v` | GP trees: /repo/xcsf/gp.c, and the conditions made of them: /repo/xcsf/cond_gp.c |
| `GpFacts.v` | GP trees are prefix expressions |
| `GpOps.v` | Random generation, copying, crossover, mutation and matching of GP trees |
| `GpRand.v` | Random terminals: when rand_uniform_int(4, 4 + n) stays below its upper bound |
| `PropGp.v` | GP trees (C39) |
| `Dgp.v` | Dynamical GP graphs: /repo/xcsf/dgp.c, cond_dgp.c and rule_dgp.c |
| `DgpFacts.v` | Dynamical GP graphs: shape, meaning of an update, ranges |
| `PropDgp.v` | Proofs for C40 (dynamical GP graphs) and the DGP part of C41 |
| `Act.v` | Neural activation functions: /repo/xcsf/neural_activations.h and .c |
| `ActFacts.v` | Activation functions over the reals: the gradient code is the derivative |
| `Image.v` | Image buffers: /repo/xcsf/image.c, for any type of numbers |
| `Layer.v` | Neural network layers: /repo/xcsf/neural_layer.c, neural_layer_connected.c, _convolutional.c, _softmax.c, _dropout.c, _noise.c, _maxpool.c, _avgpool.c, _upsample.c |
| `LayerFacts.v` | Connected layers: what the passes compute, in any arithmetic |
| `PoolFacts.v` | Pooling and upsampling layers, in any arithmetic (C47) |
| `PropConn.v` | Connected layers in exact arithmetic: backpropagation (C50) |
| `PropPool.v` | Pooling and upsampling layers (C47) |
| `ConvFacts.v` | What the image buffers and convolutional layers compute, in any arithmetic |
| `PropConv.v` | Convolution (C48) |
| `FiltFacts.v` | Adding filters to a convolutional layer |
| `MutFacts.v` | Mutation of layers: connectivity, numbers of neurons, weights |
| `PropMut.v` | Mutation of connected layers (C42, C43) |
| `PropUpd.v` | C65: the gradient-descent step |
| `UpdFacts.v` | The gradient-descent step on weights and biases |
| `Llist.v` | The doubly linked list of layers: /repo/xcsf/neural.c:30-66, 88-239 and neural.h:38-58 |
| `LlistFacts.v` | The list of layers stays a list |
| `PropList.v` | C44: lists of layers |
| `Net.v` | Neural networks: /repo/xcsf/neural.c, cond_neural.c, pred_neural.c, rule_neural.c |
| `NetFacts.v` | Facts about networks of connected, softmax, dropout and noise layers |
| `NetChain.v` | Facts about whole networks of connected, softmax, dropout and noise layers |
| `NetLayer.v` | Copying, randomising, changing and training the layers of a network |
| `PropNet.v` | Networks keep their shape and stay inside their arrays (property C66) |
| `PropRule.v` | Covering with rule-level representations (property C41); the DGP part is in PropDgp.v |
| `PropRange.v` | Neural outputs lie in their activation's range (property C45) |
| `RangeFacts.v` | Ranges of activation functions, connected layers and softmax layers, in doubles |
| `File.v` | Saving and loading a system |
| `FileFacts.v` | Reading back what was written |
| `FileNet.v` | A network that has been saved and loaded computes what it computed before |
| `FileOver.v` | Loading a file with more GP constants than the existing system has room for; a small system |
| `PropFile.v` | Saving and loading a system (C34) |
| `Pa.v` | The prediction array as allocated |
| `PaFacts.v` | Predictions with the prediction array as allocated |
| `PropPa.v` | Predicting with a loaded system (C35) |
| `Json.v` | Inserting rules given as JSON |
| `PropJson.v` | Inserting rules given as JSON (C28) |
| `PropJsonEx.v` | Documents that break the invariant, and one that does not (C28) |
| `PropCross.v` | Recombination and mutation of conditions, actions, learning rates and mutation rates (C67) |
| `PropBack.v` | Training a network of connected layers in exact arithmetic (C68) |
| `PropFlag.v` | The flag returned by the mutation of a network (C69) |
| `PropFwd.v` | What networks compute (C69) |
| `Expand.v` | Changing the shape of networks in a running system: /repo/xcsf/xcsf.c:151-188 (xcsf_pred_expand, xcsf_ae_to_classifier), pred_neural.c:300-383 and neural.c:94-195 |
| `NetAct.v` | Neural networks as actions: /repo/xcsf/act_neural.c:44-47, 77-113, 139-148 |
| `PropExpand.v` | Growing and converting networks (C72) |
| `PropSys.v` | Populations of neural rules (C73) |
| `PropText.v` | Text files are read as written (C70, C71) |
| `Text.v` | Reading text files: CSV data sets and configuration files |
| `PropLstm.v` | LSTM layers (C75) |
| `PropRecur.v` | Recurrent layers (C74) |
| `RecFacts.v` | Facts about the connected layers that recurrent and LSTM layers are made of |
| `Recur.v` | Recurrent and LSTM layers: /repo/xcsf/neural_layer_recurrent.c, neural_layer_lstm.c |
| `ParJson.v` | Parameters as JSON: /repo/xcsf/param.c, with the functions it calls in ea.c, action.c, condition.c, prediction.c, cond_ternary.c, gp.c, dgp.c, pred_nlms.c, pred_rls.c and neural_layer_args.c; the use made of it in pybind_wrapper.cpp |
| `PropParJson.v` | Lemmas for C76: parameters written as JSON and read again |
| `PropParPy.v` | Lemmas for C76 and C77: documents that are refused, the Python constructor |
| `PropDgpConn.v` | Random connections of DGP graphs reach every input and every node (C40) |
| `PropRuleJson.v` | Rules written as JSON and read again (C78) |
| `RuleJson.v` | Writing rules as JSON: cl_json_export and clset_json_export with the functions of the modelled conditions, actions and predictions |
| `PropStats.v` | What is reported about the rules of a set (C79) |
| `Stats.v` | What is reported about the rules of a set: clset.c:665-704 and clset_neural.c with the functions of cond_neural.c and pred_neural.c they call |
| `PropDraws.v` | Which draws decide what a crossover exchanges (C67) |
| `DgpJson.v` | DGP graphs as JSON: dgp.c:161-195 and 345-516, the functions of cond_dgp.c and rule_dgp.c that use them |
| `PropDgpJson.v` | DGP graphs written as JSON and read again (C80) |
| `PropTight.v` | What exported rules contain (C78), which layers are accepted (C76), mean sizes (C79) |
| `Cnn.v` | the theorems of property Cnn, with examples and their assumptions |

## 3. Which code is modelled

| Source | In the model | Left out |
|--------|--------------|----------|
| cl.c, clset.c | Pop.v (rules, sets, covering, matching, deletion, validation, subsumption, fitness, update), Clock.v (EA trigger in `int`), Json.v (import), RuleJson.v (JSON export) | printing, the OpenMP branches |
| clset_neural.c | all (Stats.v) | networks with recurrent layers |
| ea.c | Pop.v (whole), Param.v (setters) | printing |
| xcs_supervised.c, xcs_rl.c | Pop.v (whole) | performance output |
| xcsf.c | Pop.v (init, free, store, retrieve), File.v (save, load), Pa.v, Expand.v (`xcsf_ae_to_classifier`, `xcsf_pred_expand`) | printing |
| pa.c | Pop.v; Pa.v with the arrays as allocated | |
| config.c | Text.v (whole) | opening files |
| perf.c, main.c | nothing | output, command line |
| param.c, `*_param_set*` | Param.v (all setters, defaults), File.v (save, load), ParJson.v (JSON export and import, also those of ea.c, condition.c, prediction.c, action.c and neural_layer_args.c) | JSON text (documents are trees) |
| name tables in the headers | Names.v | |
| loss.c | Loss.v (whole) | |
| utils.c, utils.h | Rng.v, Cond.v, Gp.v | |
| sam.c | Sam.v, Json.v, RuleJson.v | |
| cond_dummy/ternary/rectangle/ellipsoid.c, act_integer.c | Cond.v (whole), File.v, Json.v, RuleJson.v (export) | printing |
| gp.c, cond_gp.c | Gp.v, File.v | printing, JSON (import always exits) |
| dgp.c, cond_dgp.c, rule_dgp.c | Dgp.v, DgpJson.v, File.v | printing |
| pred_constant/nlms/rls.c, blas.c | Pred.v, Blas.v, File.v, Json.v, RuleJson.v (export) | printing |
| neural_activations.c/.h | Act.v | |
| image.c | Image.v | |
| neural_layer*.c | Layer.v (connected, convolutional, softmax, dropout, noise, max and average pooling, upsample), Recur.v (recurrent and LSTM layers, each on its own, not inside of the networks of Net.v) and see section 6 for further files | JSON, printing |
| neural.c | Llist.v (pointers), Net.v (contents) | JSON, printing |
| cond_neural.c, pred_neural.c, rule_neural.c, act_neural.c | Net.v, NetAct.v, Expand.v | JSON (import always exits), printing, statistics |
| env_mux.c, env_maze.c | Env.v (whole) | opening files |
| env_csv.c | Text.v (whole) | opening files, `strtod` |
| pybind_wrapper.cpp, pybind_callback*.h | Py.v (fit, predict, score, argument checks, cover arrays, early stopping, checkpoints), ParJson.v (constructor with keywords) | pybind11 itself, the text of parameter dictionaries, pickling, `time`, printing |
| lib/dSFMT, lib/cJSON | the random tape; trees | not in the pinned source |

## 4. Simplifications

* C `int` is an unbounded integer in `Pop.v` and in most index arithmetic. Overflow is modelled
  where a property is about it or where a finding needs it: the EA trigger (`Clock.v`, C58),
  constructors of layers and the index of im2col (`Layer.v`, `Image.v`), random integers
  (`Rng.v`), the multiplexer (`Env.v`), setters (`Param.v`), loop counters of the Python wrapper.
* Allocation never fails. Memory from `malloc` that is not initialised is NaN-filled for
  arrays of doubles (`false`, 0 for booleans, integers), except in `Env.v` and `Param.v`, where
  reading it is `UB Uninit`.
* A NULL array is the empty list.
* Sets of rules are lists of locations; their list nodes are not modelled (the layers' lists are,
  in `Llist.v`, where a struct Llist and its layer are one cell).
* The serial branches of the OpenMP code are modelled.
* A network is the list of its layers from input to output (`Net.v`). `xcsf->explore` is an
  argument. The change that `neural_create` makes to its arguments is not tracked.
* The result of a rule's save or load function (a count of elements) is not modelled; a short or
  mistyped read is an error outcome.
* The prediction array in `Pop.v` has `n_actions * y_dim` elements; `Pa.v` has the allocation
  that is really there, and C35_same proves the two equal for systems that keep their dimensions.
* Floating-point contraction and extended precision are assumed off.
* GP trees of more than INT_MAX nodes are outside the model.
* Strings: a C string is the list of its characters with the terminator.

## 5. Assumptions made by theorems

They are hypotheses of the theorems that need them, never axioms.

| Name | Says |
|------|------|
| `cfg_ok K kf` (PopSpec.v) | the parameters are in the ranges that the setters enforce (C61_cfg proves it of any sequence of setter calls without NaN) |
| `vt_ok FO V K wf mt` (PopSpec.v) | the contract of the rule representation; proved of every modelled combination |
| `FO` | the fuel of a loop that may not end (self-adaptation, covering, tournament, random action) may run out |
| `Exit` | `hpost` allows `Exit` (the code stops the process when covering fails `MAX_COVER` times) |
| `libm_ok` (SamFacts.v) | log of a draw is in [-1000, 0]; sin and cos of a finite number in [-1,1]; exp not negative |
| `range_ok` (RangeFacts.v) | ranges of exp, tanh, sin, cos, expm1, log1p |
| `pow2_exact` (EnvFacts.v) | pow(2, k) is exact for k = 0..31 |
| pow antitone (C10_order) | a power with a negative exponent decreases |
| `env_ok` | an environment keeps its state vector's length and its number of actions |
| `costs` | the numerosity ever created stays below 2^53, so that it is exact as a double |
| `log2` (File.v, Dgp.v) | the oracle for log2 used in the number of action nodes |
| cJSON | lookups find the first member with the name, ignoring case; a number has the fields `valuedouble` and `valueint`, nothing is assumed of their relation |

## 6. The properties

Every statement is in `properties.jsonl`, the theorems in `rocq/theories/Cnn.v`, the exact scope in
`MANIFEST.json`. Names ending in `_refuted...` prove that the statement as written does not hold.

| Id | Property | Theorems |
|----|----------|----------|
| C01 | Population counters are always exact | `C01_counters_exact` |
| C02 | Population never exceeds its configured size | `C02_size_limit` |
| C03 | Rule memory is released exactly once and never used after release | `C03_no_leak`, `C03_all_freed` |
| C04 | Covering makes every action available | `C04_covering` |
| C05 | The match set is exactly the matching rules | `C05_match_set`, `C05_invariant` |
| C06 | The action set is exactly the advocates of the chosen action | `C06_action_set` |
| C07 | Deletion removes exactly one micro-rule | `C07_deletion`, `C07_deletion_relation` |
| C08 | Roulette selection never runs off the list | `C08_wheel_selects`, `C08_deletion_wheel`, `C08_parent_wheel` |
| C09 | Fitness stays within [0,1] | `C09_fitness_in_unit`, `C09_fitness_step` |
| C10 | Accuracy is positive and ordered by error | `C10_accuracy`, `C10_share`, `C10_order` |
| C11 | Set subsumption conserves numerosity and direction | `C11_set_subsumption` |
| C12 | The EA accounts for every offspring | `C12_ea_accounting` |
| C13 | The EA creates lambda offspring | `C13_refuted`, `C13_offspring` |
| C14 | The EA fires only when due | `C14_ea_due` |
| C15 | Absorbed offspring are genuinely identical | `C15_unchanged_identical`, `C15_ternary`, `C15_rectangle`, `C15_ellipsoid`, `C15_dummy`, `C15_integer` |
| C16 | Predicting with user-supplied cover values leaves the rules alone | `C16_predict`, `C16_score`, `C16_score_n`, `C16_parts`, `C16_ternary`, `C16_rectangle`, `C16_ellipsoid`, `C16_dummy`, `C16_integer`, `C16_constant`, `C16_nlms`, `C16_rls` |
| C17 | Set-size estimates use the true set numerosity | `C17_refuted`, `C17_match`, `C17_supervised`, `C17_reinforcement` |
| C18 | The prediction array is the fitness-weighted mean per action | `C18_prediction_array` |
| C19 | Action selection returns a valid best / represented action | `C19_decision`, `C19_best`, `C19_random`, `C19_best_value`, `C19_random_never_ends` |
| C20 | Random integers stay in range | `C20_refuted`, `C20_closed_range`, `C20_range`, `C20_from_zero`, `C20_all_values` |
| C21 | Ternary conditions: covering matches, generality is inclusion | `C21_cover`, `C21_match`, `C21_general`, `C21_order`, `C21_refuted`, `C21_refuted_nan` |
| C22 | Hyperrectangle covering matches | `C22_cover`, `C22_match` |
| C23 | Hyperrectangle generality is inclusion | `C23_general`, `C23_order`, `C23_finite` |
| C24 | Hyperellipsoid covering matches and generality is inclusion | `C24_refuted`, `C24_refuted_cover`, `C24_cover`, `C24_match`, `C24_test`, `C24_wider` |
| C25 | Mutation and crossover keep conditions well formed | `C25_ternary`, `C25_rectangle`, `C25_ellipsoid` |
| C26 | Self-adaptive mutation rates stay in their range | `C26_rates`, `C26_step` |
| C27 | Rule actions are always valid | `C27_integer`, `C27_population` |
| C28 | Imported JSON rules cannot corrupt the system | `C28_insert`, `C28_decode`, `C28_parts`, `C28_types`, `C28_numbers`, `C28_rates`, `C28_empty`, `C28_refuted` |
| C29 | Polynomial feature expansion fills its buffer exactly | `C29_expansion`, `C29_count` |
| C30 | Linear predictions are the inner product and NLMS moves towards the target | `C30_linear`, `C30_refuted`, `C30_quadratic`, `C30_compute`, `C30_update` |
| C31 | RLS update contracts the error and keeps its gain matrix sound | `C31_step`, `C31_run`, `C31_init`, `C31_compute`, `C31_update` |
| C32 | Constant prediction is a running then exponential mean | `C32_step`, `C32_mean`, `C32_hull`, `C32_code` |
| C33 | Store followed by retrieve restores the population | `C33_refuted`, `C33_round_trip`, `C33_empty`, `C33_rule`, `C33_nlms`, `C33_rls` |
| C34 | Save followed by load restores the system | `C34_round_trip`, `C34_network`, `C34_overflow`, `C34_refuted` |
| C35 | A loaded system can be used safely | `C35_load`, `C35_loaded`, `C35_same`, `C35_refuted` |
| C36 | Setters accept exactly the documented ranges | `C36_int`, `C36_double`, `C36_nan_refuted`, `C36_bool`, `C36_loss`, `C36_loss_name`, `C36_ea_select`, `C36_type_names`, `C36_clamped_int`, `C36_clamped_double`, `C36_unrestricted`, `C36_clamped_refuted`, `C36_type_refuted`, `C36_file`, `C36_file_refuted` |
| C37 | Names and codes of options correspond one to one | `C37_loss`, `C37_cond`, `C37_pred`, `C37_act`, `C37_ea`, `C37_layer`, `C37_activ`, `C37_layer_refuted` |
| C38 | Losses are non-negative and vanish on perfect predictions | `C38_defined`, `C38_mae`, `C38_mae_one`, `C38_mse`, `C38_rmse`, `C38_huber`, `C38_log`, `C38_binary_log`, `C38_onehot`, `C38_refuted`, `C38_refuted_log` |
| C39 | GP trees stay syntactically valid | `C39_refuted`, `C39_valid`, `C39_random`, `C39_endless`, `C39_copy`, `C39_crossover`, `C39_mutation`, `C39_evaluation`, `C39_cover`, `C39_number`, `C39_unique`, `C39_system` |
| C40 | Dynamical GP graphs stay in range | `C40_refuted`, `C40_range`, `C40_update`, `C40_mutation`, `C40_connections`, `C40_copy`, `C40_cover`, `C40_import_refuted`, `C40_import`, `C40_import_states`, `C40_system` |
| C41 | Rule covering delivers a matching rule with the requested action | `C41_dgp`, `C41_dgp_action`, `C41_neural`, `C41_neural_action`, `C41_refuted_dgp`, `C41_refuted_neural`, `C41_refuted_short` |
| C42 | Neural connectivity mutation never disconnects | `C42`, `C42_mutate`, `C42_refuted_removal`, `C42_refuted_addition`, `C42_refuted_conv`, `C42_resize`, `C42_update`, `C42_count` |
| C43 | Neuron growth respects limits | `C43_count`, `C43_add`, `C43_mutate`, `C43_safe`, `C43_filters`, `C43_conv`, `C43_conv_safe` |
| C44 | Layer lists stay consistent | `C44_insert`, `C44_remove`, `C44_remove_first`, `C44_rejected`, `C44_push`, `C44_pop`, `C44_walk`, `C44_copy`, `C44_free`, `C44_refuted_insert`, `C44_refuted_remove` |
| C45 | Neural outputs lie in their activation's range | `C45_activation`, `C45_state`, `C45_connected`, `C45_softmax`, `C45_network`, `C45_refuted_layer`, `C45_refuted_selu`, `C45_refuted_scale`, `C45_refuted_negative` |
| C46 | Activation gradients are the derivatives | `C46`, `C46_where`, `C46_array`, `C46_values` |
| C47 | Pooling and resampling index safely and compute what they say | `C47_init`, `C47_average`, `C47_average_doubles`, `C47_max`, `C47_max_back`, `C47_max_back_doubles`, `C47_max_ends`, `C47_upsample`, `C47_upsample_back`, `C47_refuted_stride`, `C47_refuted_window`, `C47_refuted_zero` |
| C48 | Convolution computes the zero-padded correlation | `C48`, `C48_doubles`, `C48_init`, `C48_adjoint`, `C48_overflow`, `C48_refuted_stride`, `C48_refuted_pad`, `C48_refuted_overflow`, `C48_refuted_size` |
| C49 | Matrix kernels compute the specified products | `C49_gemm`, `C49_gemm_doubles`, `C49_dot`, `C49_axpy`, `C49_scal`, `C49_fill`, `C49_mul`, `C49_sum` |
| C50 | Backpropagation is the gradient | `C50`, `C50_squared`, `C50_refuted` |
| C51 | Multiplexer environment is correct | `C51_init`, `C51_state`, `C51_execute`, `C51_environment`, `C51_trial` |
| C52 | Maze environment stays inside its grid | `C52_load`, `C52_load_only`, `C52_load_refuted`, `C52_rectangle`, `C52_reset`, `C52_reset_all`, `C52_reset_stuck`, `C52_sense`, `C52_execute`, `C52_environment` |
| C53 | Multi-step learning uses the discounted one-step target | `C53_trial`, `C53_update`, `C53_fit`, `C53_experiment`, `C53_refuted` |
| C54 | Batch training visits the intended samples and returns the mean loss | `C54_fit`, `C54_score_all`, `C54_score` |
| C55 | Python fit runs the requested number of trials | `C55_refuted`, `C55_epochs`, `C55_count`, `C55_exact`, `C55_rows` |
| C56 | User-supplied cover arrays stay owned by the user | `C56_refuted`, `C56_refuted_free`, `C56_refuted_converted`, `C56_refuted_short`, `C56_refuted_leak`, `C56_no_cover`, `C56_call`, `C56_array` |
| C57 | Early stopping keeps the best population | `C57_early_stopping`, `C57_best`, `C57_refuted` |
| C58 | Clock and counters do not overflow | `C58_training`, `C58_split`, `C58_step`, `C58_clock`, `C58_refuted` |
| C59 | Averages of observed quantities stay in their hull | `C59_exact`, `C59_rule_exact`, `C59_double`, `C59_box`, `C59_refuted`, `C59_match`, `C59_action`, `C59_error` |
| C60 | Reported match fraction is a fraction | `C60_rule`, `C60_population`, `C60_match`, `C60_reachable` |
| C61 | Defaults and setters keep every parameter in its range | `C61_init`, `C61_calls`, `C61_cfg`, `C61_init_refuted` |
| C62 | Python array arguments are checked before use | `C62_two_dimensional`, `C62_any`, `C62_predict`, `C62_refuted`, `C62_predict_refuted` |
| C63 | score with a limit looks at that many samples | `C63_score`, `C63_refuted` |
| C64 | Checkpoints keep the best system | `C64_checkpoint`, `C64_refuted` |
| C65 | The weight update is a limited gradient step | `C65`, `C65_doubles`, `C65_off` |
| C66 | Networks keep their shape through evolution and learning | `C66_create`, `C66_copy`, `C66_rand`, `C66_propagate`, `C66_output`, `C66_learn`, `C66_mutate`, `C66_mutate_fixed`, `C66_resize`, `C66_life`, `C66_refuted_outputs`, `C66_refuted_targets`, `C66_refuted_image` |
| C67 | Crossover recombines and mutation perturbs by the rate | `C67_ternary`, `C67_rectangle`, `C67_ellipsoid`, `C67_centres`, `C67_action`, `C67_eta`, `C67_rates`, `C67_half`, `C67_draws_ternary`, `C67_draws_rectangle`, `C67_draws_ellipsoid` |
| C68 | A network is trained by the gradient of its error | `C68`, `C68_code` |
| C69 | What networks compute, and when they report a change | `C69_propagate`, `C69_predict`, `C69_match`, `C69_size`, `C69_flag` |
| C70 | CSV data sets are read as written | `C70_table`, `C70_read`, `C70_rows`, `C70_file`, `C70_length`, `C70_pair`, `C70_refuted` |
| C71 | Configuration files are read without comments and blanks | `C71_lines`, `C71_read`, `C71_strip`, `C71_pieces`, `C71_refuted` |
| C72 | Networks in a population can be deepened and turned into classifiers | `C72_expand`, `C72_classifier`, `C72_pred_expand`, `C72_to_classifier`, `C72_insert`, `C72_pop`, `C72_refuted_single`, `C72_refuted_cover`, `C72_refuted_stale` |
| C73 | Systems whose conditions, actions and predictions are networks stay sound | `C73_life`, `C73`, `C73_train`, `C73_action`, `C73_cover`, `C73_refuted_outputs` |
| C74 | Recurrent layers compute, learn, evolve and survive files as connected layers do | `C74_init`, `C74_forward`, `C74_backward`, `C74_life`, `C74_copy`, `C74_refuted_copy`, `C74_refuted_gradient`, `C74_refuted_rate`, `C74_growth`, `C74_refuted_growth`, `C74_refuted_load` |
| C75 | LSTM layers compute the gates, train all weights and survive copies and files | `C75_init`, `C75_forward`, `C75_backward`, `C75_life`, `C75_refuted_training`, `C75_copy`, `C75_refuted_copy`, `C75_load`, `C75_refuted_load` |
| C76 | Parameters written as JSON and read into any system are the same again | `C76_export`, `C76_round_trip`, `C76_layers`, `C76_layers_again`, `C76_validation`, `C76_read_layers`, `C76_accepted`, `C76_rejected`, `C76_refuted_infinite`, `C76_refuted_file`, `C76_refuted_network` |
| C77 | Whatever document is imported, parameters stay in range and agree with the dimensions | `C77_range`, `C77_python`, `C77_refuted_trees`, `C77_refuted_graphs`, `C77_trees`, `C77_graphs`, `C77_refuted_layers` |
| C78 | A population written as JSON and inserted again is the same | `C78_population`, `C78_parts`, `C78_rule`, `C78_values`, `C78_members`, `C78_refuted_rls`, `C78_refuted_infinite`, `C78_refuted_empty` |
| C79 | What is reported about the rules of a set is their mean | `C79_conditions`, `C79_predictions`, `C79_between`, `C79_other`, `C79_sizes`, `C79_part_sizes`, `C79_refuted_empty`, `C79_refuted_large` |
| C80 | A DGP graph written as JSON and inserted again is the same graph | `C80_round_trip`, `C80_valid`, `C80_rule`, `C80_import`, `C80_accepted`, `C80_refuted_size`, `C80_refuted_rates`, `C80_refuted_cycles` |

## 7. Findings

Each item is a place where the code, as modelled, does something its specification or a reader
would not expect. Those with a theorem are proved by a concrete run.

**Memory safety**
* `xcsf_load` does not resize the prediction array; predicting after loading a larger system writes
  outside of it (C35_refuted). The Python deserialiser always loads into a system of size 1x1x1.
* `tree_args_load` reads the constants into the existing allocation (C34_refuted).
* `rand_uniform_int(lo, hi)` can return `hi` when `lo` is not 0 (C20_refuted). For GP trees with
  two or five terminals this is a read out of bounds (C39_refuted).
* CSV data: an empty line at the end or a line of 200 characters makes `strtod` read NULL
  (C70_refuted); fewer rows of inputs than of targets are read out of bounds (C70_pair).
* `config_read`: a file in which nothing is stripped (no newline, blank or comment) is written one
  byte beyond the buffer; an empty file declares an array of size 0 (C71_refuted, C71_read).
* `pred_expand` on a network of one layer dereferences NULL (C72_refuted_single); `ae_to_classifier` on
  a network whose output layer evolved makes a layer that reads past its input (C72_refuted_stale).
* An action network with fewer outputs than there are actions is accepted; the first action computed
  reads past the outputs (C73_refuted_outputs).
* JSON rules: an empty array dereferences NULL, actions out of range and numerosity 0 or negative are
  accepted, a large numerosity overflows (C28_refuted, C28_empty).
* Imported DGP connections are checked with an off-by-one bound (C40_import_refuted).
* A DGP rule with too few nodes for its outputs reads past its states (C41_refuted_short).
* The maze reader writes before it checks its bounds (C52_load_refuted).
* `neural_insert` at position 0 of a network dereferences NULL (C44_refuted_insert).
* A recurrent layer read from a file has a NULL output (C74_refuted_load); a grown one reads states never
  written, and its weights then depend on them (C74_growth, C74_refuted_growth).
* `neural_learn` reads as many targets as the output layer has neurons (C66_refuted_targets).
* Python: a cover array of the caller is kept, overwritten, freed, or read after it is gone
  (C56_refuted...); one-dimensional inputs are not checked (C62_refuted).
* `population_file` names of more than 512 characters are stored without terminator (C36_file_refuted).
* `layer_type_as_int` compares "recurrent" without its terminator (C37_layer_refuted).
* Pooling and convolution accept sizes, strides and paddings for which they index
  outside of the image (C47_refuted..., C48_refuted...).
* `clset_total_time` overflows an int (C58_refuted); x_dim of 46342 or more overflows the number of
  quadratic features.

**Wrong results**
* Odd `lambda` creates `lambda + 1` offspring (C13_refuted).
* Deleting a micro-rule while covering does not lower the numerosity of the match set (C17_refuted).
* Ternary conditions of more than 31 bits (C21_refuted); hyperellipsoid generality (C24_refuted).
* The quadratic NLMS step is normalised by the raw inputs (C30_refuted).
* Store and retrieve: constant predictions are zeroed, the order of the rules is reversed, the RLS
  gain matrix is reset (C33_refuted).
* `rule_dgp.c:217-226` and `rule_neural.c:226-235` stop covering when the rule matches *or* has the
  action (C41_refuted_dgp, C41_refuted_neural).
* Removing or adding neurons can leave inputs or neurons disconnected (C42_refuted...).
* `neural_mutate` leaves the number of outputs of the network stale (C66_refuted_outputs).
* The backward pass ignores the clamping of states at +-100 (C50_refuted).
* In the terminal step of a multi-step problem, rules also in the previous action set are updated with
  the previous state's prediction (C53_refuted).
* Python: `fit` runs more trials than requested (C55_refuted), `score` with a limit of one looks at all
  rows (C63_refuted), early stopping without a number restores an unrelated population (C57_refuted),
  `save_best_only` with a frequency can miss the best system (C64_refuted).
* Recurrent layers: copies forget the last output (C74_refuted_copy); the self layer is trained with the
  previous state instead of the previous output, so backward is not the gradient (C74_refuted_gradient);
  once rates evolve, the rate becomes 0 and learning stops (C74_refuted_rate).
* LSTM layers: `prev_state` and `prev_cell` are never written, so the layers on the last output and the
  forget gate are never trained (C75_refuted_training); copies forget cells and outputs (C75_refuted_copy);
  files lose both activation functions (C75_refuted_load); derivatives are taken at the outputs of the
  activation functions (C75_backward). `uf` is resized twice.
* Setters accept NaN; many clamp silently; type codes are not checked (C36_...refuted).
* `param_init` ignores rejected values (C61_init_refuted).
* Parameters as JSON: infinite values become null and cannot be read back (C76_refuted_infinite); file
  names of more than 512 characters are stored unterminated (C76_refuted_file); exporting parameters of
  networks builds a network, which draws random numbers and changes the layer parameters
  (C76_refuted_network).
* Rules as JSON: the gain matrix of RLS predictions is not written (C78_refuted_rls); infinite weights are
  read as zero without an error (C78_refuted_infinite); the document of an empty set makes the reader
  dereference NULL (C78_refuted_empty).
* DGP graphs as JSON: a document may give more nodes than the parameters, and every copy of the rule then
  writes past its blocks (C80_refuted_size); without rates the next mutation reads uninitialised memory
  (C80_refuted_rates); the number of cycles is not limited (C80_refuted_cycles).
* Statistics: the mean condition or prediction size of an empty set is NaN, where the other means are zero
  (C79_refuted_empty); the mean number of connections is summed in an int, which 140 rules with 4000 x 4000
  weights overflow (C79_refuted_large; the default population of 2000 rules does with about 1.1 million
  weights each).
* Python constructor: parameters are initialised for one input, output and action before the keywords are
  read, so GP trees and DGP graphs see one input only (C77_refuted_trees, C77_refuted_graphs) and default
  layers keep the old dimensions (C77_refuted_layers).

**Numbers**
* A NaN error counts as accurate (`> E0` is false), so the rule gets accuracy 1 (C10).
* MSE and MAE of different vectors can be 0 by underflow; Huber with threshold 0 can be NaN; log loss
  can be negative (C38_refuted...).
* Averages with BETA = 1 can leave their hull by rounding (C59_refuted).
* Large finite inputs make DGP states and network states NaN (C40_refuted, C45_refuted_layer).
* After `ae_to_classifier` covering still makes networks with the old number of outputs: the program
  exits when there are more classes (C72_refuted_cover).
* Comments of more than 124 characters leak into the configuration (C71_refuted). Empty CSV fields
  shift the columns (C70_refuted).
* Softmax with scale zero or negative; SELU of large states (C45_refuted...).

**Loops that may not end**: random action with all actions unrepresented (C19_random_never_ends), GP tree
generation (C39_endless), resetting a maze without free cells (C52_reset_stuck), tournament of size 0.

Seen while reading, not stated as theorems: `cond_dummy_general` is always false; `condition_set`
lacks a case for neural rules; a fitness of -0.0 gives a vote of minus infinity; `graph_mutate` reports a
change when the number of cycles did not move; `neural_json_import` and `tree_json_import` always exit;
RLS keeps NaN by multiplying with 0; the RLS copy does not copy the gain matrix; convolutional save and
load differ in the number of bias updates; `neural_load` ignores the saved numbers of inputs and outputs;
`recurrent_rand` and `lstm_rand` do not
refresh the number of active connections; the Python XCS class has no
destructor.

## 8. Trusted base

* The Coq kernel (`coqc`; `coqchk` for a second opinion).
* The axioms listed by `Print Assumptions` under each theorem. Every theorem is either closed under the
  global context or depends on a subset of the standard library's
  `ClassicalDedekindReals.sig_not_dec`, `ClassicalDedekindReals.sig_forall_dec`,
  `FunctionalExtensionality.functional_extensionality_dep` and `Classical_Prop.classic`, which come with
  the real numbers and Flocq. No axiom is added here.
* The reading of the C and C++ code, recorded in the comments of the model files with file and line.
* The statements of the theorems, and the definitions they use.

Not verified: cJSON's parser and printer, dSFMT's recurrence, OpenMP scheduling, the operating system,
the compiler, pybind11.

## 9. Mutation testing

`seeded/LOG.jsonl` has one line per wrong program: a definition of the model is edited in a scratch copy,
everything that depends on it is rebuilt, and the theorems whose proofs fail are recorded. A mutant that
survives leads to a stronger theorem (field `theorems_tightened`) or to a note why it is equivalent.
