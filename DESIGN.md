# Formal model of scikit-multiflow in Rocq (Coq 8.16.1)

## 1. Layout

`rocq/theories/` (logical name `Verif`):

| directory | content |
|---|---|
| `Base/`   | arithmetic interface `Num` (and its instances), Python exceptions as values, list lemmas |
| `Model/`  | executable Gallina models of the Python functions; every definition cites file:lines of `/repo/src/skmultiflow` |
| `Spec/`   | small specifications that never mention the model (sums, last n elements, means, ...) |
| `Proofs/` | invariants, refinements, lemmas |
| `Props/`  | one file per area, holding only the property theorems (each closed by `exact lemma`), an `Example` showing the hypotheses are met by a concrete non-trivial case, and `Print Assumptions` |

## 2. Modelling conventions

* **Numbers.** Python code mixes `int`, `float` and numpy scalars. Models are written against a
  record `Num T` of operations (`+ - * / < <= == sqrt ln ofZ`). No law about these operations is part of
  the record.
  * Theorems stated `forall T (N : Num T)` use *no* property of arithmetic: they hold for binary64 floats
    with NaN, infinities and rounding as well as for exact numbers. All structural properties (shape of
    buffers and bucket lists, control flow, flags, order of events) are of that kind wherever possible.
  * Numerical properties (a mean *is* the mean) are stated for the instance `Num R` (stdlib reals, exact
    arithmetic); floating point rounding is then out of the model, and this is said in each theorem's comment.
  * Refutation witnesses are evaluated with `vm_compute` on the instances `Num Q` or (bit exact binary64)
    `Num PrimFloat.float`, so that the failing run is an actual run of the program.
* **Exceptions** are values: `Ok x | Raise e` (`Base/Py.v`). A Python division that would raise
  `ZeroDivisionError` is modelled by a checked division where the operands are Python numbers; where the operands
  are numpy scalars division by zero yields nan/inf and is modelled by the unchecked operation. Which of
  the two is used is stated at the definition.
* **State machines.** A mutable object is a record; a method is a function from the record to the record and
  its result; a history is a list of operations folded over the initial record. Properties over all
  histories are proved by induction over that list with an explicit invariant.
* **External behaviour** (learner `predict`/`partial_fit`, random generators, the KS test, the order in which an unstable
  sort leaves ties, wall clock) enters as function arguments of the model and is universally quantified in the theorems.
* **Refuted properties.** If the code violates the property a user relies on, the theorem
  `<name>_refuted` gives a concrete run violating it and, whenever possible, a universal theorem says
  exactly what holds instead (suffix `_partial` when it is a restriction of the property). Such properties have status
  `partial` in `MANIFEST.json` with a note starting with `REFUTED`.

## 3. Trusted base

* Coq 8.16.1's kernel (and `vm_compute`, part of the kernel), re-checked by `coqchk`.
* Axioms: only those of the standard library which `Print Assumptions` lists under each theorem in `Props/`:
  for theorems about the reals `ClassicalDedekindReals.sig_forall_dec`, `ClassicalDedekindReals.sig_not_dec`,
  `FunctionalExtensionality.functional_extensionality_dep` and, where the stdlib lemmas about `exp`, `ln`, `sqrt` or
  powers need it, `Classical_Prop.classic`; for runs on binary64 the primitive
  float/int63 operations of `Coq.Floats`/`Coq.Numbers`. Generic theorems are closed under the global context.
* The faithfulness of the hand written models to the Python text, as documented by the citing comments.

### 3.1 What is modelled

<!-- modelled:begin -->
| model file | code | part |
|---|---|---|
| `Model/AdaTree.v` | trees/_nodes/hatc_nodes.py, trees/_nodes/hatr_nodes.py | the nodes of the adaptive trees with alternate trees: learning, replacement, counters, routing; leaves, detectors and split decisions are arguments |
| `Model/AdaptiveForest.v` | meta/adaptive_random_forests.py, utils/validation.py (check_weights) | AdaptiveRandomForestClassifier and its members; trees, detectors and evaluators are arguments |
| `Model/Adwin.v` | drift_detection/adwin.py | buckets, insertion, compression, cut detection, counters; the bucket arrays are lists |
| `Model/ArfTree.v` | trees/arf_hoeffding_tree.py, trees/arf_hoeffding_tree_regressor.py, trees/_nodes/arf_htc_nodes.py, arf_htr_nodes.py | ARFHoeffdingTreeClassifier and ARFHoeffdingTreeRegressor: leaves that watch drawn attributes, training, prediction; the generator is an argument, new_instance is not modelled |
| `Model/Attributes.v` | data/unsupervised_stream.py, options/file_option.py | attribute lookup and assignment of UnsupervisedStream and FileOption |
| `Model/Bagging.v` | meta/oza_bagging.py, oza_bagging_adwin.py, leverage_bagging.py | whole classes |
| `Model/Chains.v` | meta/multi_output_learner.py, regressor_chains.py, classifier_chains.py | whole classes |
| `Model/ClassMeasure.v` | metrics/measure_collection.py (11-338) | ClassificationMeasurements: results, matrix, accuracy, all kappas, precision, recall, F1, G-mean, majority class |
| `Model/ClassMetrics.v` | metrics/_confusion_matrix.pyx, metrics/_classification_performance_evaluator.pyx, metrics/measure_collection.py | classification evaluators |
| `Model/ConfMat.v` | utils/data_structures.py 343-867 | ConfusionMatrix, MOLConfusionMatrix |
| `Model/DataStream.v` | data/data_stream.py, file_stream.py, temporal_data_stream.py | stream position, slicing, restart; pandas parsing is not |
| `Model/Ddm.v` | drift_detection/ddm.py | whole class |
| `Model/DefaultReset.v` | core/base.py (245-291, 344-356), utils/_pprint.py | BaseSKMObject.reset: the printed text up to line breaks (30 elements, at most 700 characters), removal of blanks, renaming of the class, and the part of exec it needs |
| `Model/DictUtils.v` | utils/utils.py (39-83, 184-215) | normalize_values_in_dict, get_max_value_key, add_dict_values on a heap of dictionaries |
| `Model/Ebst.v` | trees/_attribute_observer/numeric_attribute_regression_observer.py | E-BST with removal |
| `Model/Eddm.v` | drift_detection/eddm.py | whole class |
| `Model/Efdt.v` | src/skmultiflow/trees/extremely_fast_decision_tree.py, trees/_nodes/efdtc_nodes.py | ExtremelyFastDecisionTreeClassifier: partial_fit, leaf and split node processing, re-evaluation, replacement, kill, counters, predictions |
| `Model/EvalOutput.v` | evaluation/base_evaluator.py (170-239, 320-535, 543-656), evaluation_data_buffer.py, utils/constants.py | Evaluators: configuration check, order of metrics, values of a report, header and lines of the output file, its buffer; not the text of numbers and names |
| `Model/Evaluate.v` | evaluation/evaluate_prequential.py, evaluate_holdout.py | _train_and_test loops; plotting is not |
| `Model/EvaluateDelayed.v` | evaluation/evaluate_prequential_delayed.py | _train_and_test loop and helpers |
| `Model/Experts.v` | meta/dynamic_weighted_majority.py, additive_expert_ensemble.py | whole classes |
| `Model/FastBuffer.v` | utils/data_structures.py 9-162 | FastBuffer |
| `Model/FastComplexBuffer.v` | utils/data_structures.py 165-340 | FastComplexBuffer |
| `Model/FileScripts.v` | utils/file_scripts.py | clean_header, RemoveHeader: names, lines, files as a map from paths |
| `Model/ForestRegressor.v` | meta/adaptive_random_forest_regressor.py | AdaptiveRandomForestRegressor and its members, with the normalisation of what the detectors are told and the aggregation; trees, detectors and evaluators are arguments |
| `Model/GaussianObs.v` | trees/gaussian_estimator.py, numeric_attribute_class_observer_gaussian.py | whole classes; erf is an argument |
| `Model/GenSpeed.v` | evaluation/evaluate_stream_gen_speed.py | _measure_stream_speed: batches asked for and percentages told; the clock is an argument |
| `Model/GenStreams.v` | data/* | ConceptDriftStream, RegressionGenerator, MultilabelGenerator, RandomTree, RBF(+drift), AnomalySine |
| `Model/Generators.v` | data/*_generator.py | SEA, STAGGER, Sine, Mixed, AGRAWAL, LED(+drift), Hyperplane, Waveform; random draws are arguments |
| `Model/HalfSpaceTrees.v` | anomaly_detection/half_space_trees.py | whole classes |
| `Model/HddmA.v` | drift_detection/hddm_a.py | whole class |
| `Model/HddmW.v` | drift_detection/hddm_w.py | whole class |
| `Model/HoeffdingAdaptive.v` | trees/hoeffding_adaptive_tree.py, trees/_nodes/hatc_nodes.py | HoeffdingAdaptiveTreeClassifier with ADWIN, bootstrap weights and votes |
| `Model/HoeffdingAdaptiveRegressor.v` | trees/hoeffding_adaptive_tree_regressor.py, trees/_nodes/hatr_nodes.py | HoeffdingAdaptiveTreeRegressor: leaves, split nodes, alternate trees, monitored errors, training, prediction, reset; the detector and the generator are arguments |
| `Model/HoeffdingRegressor.v` | trees/hoeffding_tree_regressor.py, trees/_nodes/htr_nodes.py | HoeffdingTreeRegressor with mean and perceptron leaves: training, standardisation, split attempts, memory management, predict, reset; random initial weights are arguments |
| `Model/HoeffdingTree.v` | trees/hoeffding_tree.py, _nodes/htc_nodes.py | training, prediction, splits |
| `Model/ISoup.v` | trees/isoup_tree.py, trees/stacked_single_target_hoeffding_tree_regressor.py, trees/_nodes/isouptr_nodes.py, sst_htr_nodes.py | iSOUPTreeRegressor and StackedSingleTargetHoeffdingTreeRegressor: all kinds of leaves, training, prediction, reset; the numbers drawn for the weights are an argument |
| `Model/Knn.v` | lazy/knn_classifier.py, knn_adwin.py, knn_regressor.py | whole classes; the KD tree query is an argument |
| `Model/Kswin.v` | drift_detection/kswin.py | whole class; the KS test and the random choice are arguments |
| `Model/LabelCombination.v` | trees/label_combination_hoeffding_tree.py, trees/_nodes/lc_htc_nodes.py | LabelCombinationHoeffdingTreeClassifier: translation of the labels, training, prediction |
| `Model/LearnNSE.v` | meta/learn_nse.py | whole class |
| `Model/LearnPP.v` | meta/learn_pp.py | whole class |
| `Model/Learner.v` | core/base.py (estimator interface) | the interface ensembles use |
| `Model/LearnerInstances.v` | - | modelled classifiers as learners |
| `Model/MultiLabelMetrics.v` | metrics/*.pyx | multi-label confusion matrix and evaluators |
| `Model/MultiTargetClass.v` | metrics/measure_collection.py | multi-target classification measurements |
| `Model/NaiveBayes.v` | bayes/naive_bayes.py, bayes/utils.py | whole classes |
| `Model/NominalObs.v` | trees/_attribute_observer/nominal_*.py | whole classes |
| `Model/ObjectSize.v` | utils/utils.py (86-149) | calculate_object_size over object graphs |
| `Model/OnlineEnsembles.v` | meta/online_*.py | whole classes |
| `Model/PageHinkley.v` | drift_detection/page_hinkley.py | whole class |
| `Model/Params.v` | core/base.py | get_params, set_params and clone on a heap of objects; the constructors of DDM and StreamingRandomPatchesClassifier as instances, other constructors are arguments |
| `Model/Pipeline.v` | core/pipeline.py | whole class |
| `Model/RandomPatches.v` | meta/streaming_random_patches.py | StreamingRandomPatchesClassifier, its members and the combinations of features; base estimators, detectors and evaluators are arguments |
| `Model/RegMetrics.v` | metrics/measure_collection.py | regression and running time measurements |
| `Model/Rslvq.v` | prototype/robust_soft_learning_vector_quantization.py | All of RobustSoftLearningVectorQuantization: constructor, partial_fit, both updates, predict. Labels are integers; nan checks not modelled; uninitialised memory and draws are arguments. |
| `Model/SamKnn.v` | lazy/sam_knn.py, lazy/src/libNearestNeighbors/nearestNeighbor.cpp | SAMKNNClassifier: predict, partial_fit, memory sizes, cleaning, clustering and the window sizer; KMeans and rounding are arguments |
| `Model/SlidingWindow.v` | utils/data_structures.py 878-999 | SlidingWindow |
| `Model/SplitCriteria.v` | trees/_split_criterion/*.py | whole classes |
| `Model/SplitTests.v` | trees/_attribute_test/*.py, rules/base_predicate.py | whole classes |
| `Model/Statistics.v` | utils/statistics.py | normal_probability, error_function, error_function_complemented, pol_evl, p1_evl |
| `Model/Suggestion.v` | attribute_split_suggestion.py | comparison of suggestions |
| `Model/TargetStats.v` | trees/_nodes (regression statistics) | statistics dictionaries |
| `Model/TimeManager.v` | data/time_manager.py | whole class |
| `Model/Transform.v` | transform/*.py | scalers, missing values cleaner, one-hot |
| `Model/TreeRules.v` | trees/hoeffding_tree.py get_model_rules, rules/base_rule.py | The rules of a Hoeffding tree and the instances they cover; texts, names and drift detectors of rules are not modelled |
| `Model/TreeSkeleton.v` | trees/_nodes/base.py, hoeffding_tree.py | nodes, routing, growth, counters, memory limits |
| `Model/Vfdr.v` | src/skmultiflow/rules/very_fast_decision_rules.py, base_rule.py, base_predicate.py, attribute_expand_suggestion.py, *_criterion.py and *_attribute_class_observer.py of rules/ | VeryFastDecisionRulesClassifier: rules, conditions, observers, rule criteria, creation, expansion, drift, the three prediction strategies, reset, descriptions (not their text) |
| `Model/Visualizer.v` | visualization/evaluation_visualizer.py | EvaluationVisualizer.on_new_train_step and _update_plots: lines, limits of the axis, when to draw, data points; matplotlib, annotations and configuration are not modelled |
| `Model/VisualizerSetup.v` | visualization/evaluation_visualizer.py, evaluation/base_evaluator.py (187-198) | the checks of EvaluationVisualizer.__init__, the positions of subplots in __configure, the limits of the true-vs-predicted plot, the order of metrics in evaluators; matplotlib.add_subplot is described by its documented digits |
| `Model/Weights.v` | utils/validation.py | check_weights, check_random_state |
| `Model/WindowMeasure.v` | metrics/measure_collection.py (341-712) | WindowClassificationMeasurements: results, window buffers, matrix, accuracy, Kappa T and M (weights are integers; the other scores are those of ClassMeasure) |
| `Model/Windowed.v` | meta/batch_incremental.py, accuracy_weighted_ensemble.py | whole classes |
<!-- modelled:end -->

### 3.2 What is not modelled

<!-- notmodelled:begin -->
* Learners: neural_networks/perceptron.py (a wrapper of scikit-learn).
* core/base.py: texts of more than 700 characters in __repr__, pickling state, tags.
* evaluation/base_evaluator.py: the decimal text of numbers in output files, and plots; visualization/: matplotlib, annotations, legends and the configuration of plots; options/base_option.py (an abstract class); _demos/; setup files; utils/_show_versions.py.
* Everything outside scikit-multiflow: numpy, scipy, scikit-learn, pandas and the Python interpreter; the functions used are described at the model definition that stands for them.
* Rounding of binary64 in the theorems stated over the reals; memory consumption, timing, pickling, concurrency.
<!-- notmodelled:end -->

## 4. Plan per property

| id | property | model and proof |
|---|---|---|
| C01 | FastBuffer is a bounded FIFO holding the most recent elements | Model/FastBuffer.v: state (size, max, list); every method. Refinement to the list specification "last max_size of"; induction over operation lists. |
| C02 | FastBuffer reports every evicted element exactly once | same model; conservation invariant evicted ++ popped ++ stored = added, by induction. |
| C03 | SlidingWindow keeps the last window_size samples with features and targets aligned | Model/SlidingWindow.v: matrices as lists of rows, numpy shape errors as exceptions; refinement to "last n samples" by induction. |
| C04 | A rejected SlidingWindow sample leaves the window unchanged | same model; refuted for a target-width mismatch by a concrete run; universal theorem for a feature-width mismatch. |
| C05 | utils.ConfusionMatrix counts exactly what was reported | Model/UtilsConfusion.v: matrix as list of rows of Z; counting invariant over operation lists. |
| C06 | utils.ConfusionMatrix.update accepts labels beyond the current size | same model with np.max(i,j) as in the code (j is taken as an axis); refuted by a concrete run, plus a universal statement of when it raises. |
| C07 | ADWIN window size equals the number of elements its buckets summarise | Model/Adwin.v: arrays of 6 cells per row, linked list as list of rows, generic arithmetic; invariant over all operation lists for every Num. |
| C08 | ADWIN total and estimation describe exactly the newest `width` stream elements | same model over R; ghost relation "row list summarises this suffix of the stream", induction over operations. |
| C09 | ADWIN memory is logarithmic in the window | from the structure invariant of C07 (pure arithmetic on powers of two). |
| C10 | ADWIN detection reports exactly window shrinkage | same model; generic arithmetic; loop modelled with the explicit measure "number of buckets" and shown never to run out. |
| C11 | ADWIN variance is the variance of the window | same model over R: proved for histories without deletions; refuted on Q by a run with one deletion after deep compression. |
| C12 | ADWIN considers every bucket boundary as a cut point | the scan made to return the list of comparisons; refuted by concrete run; universal theorem stating which boundaries are skipped. |
| C13 | ADWIN.get_change reports whether the last call detected drift | universal theorem: get_change is False in all reachable states; refutes the property. |
| C14 | ADWIN reset returns to the freshly constructed state | reset state equals init state, hence all later observations agree. |
| C15 | DDM tracks the exact error rate since its last reset | Model/Ddm.v over R; invariant: tracked mean * count = sum of elements since reset. |
| C16 | DDM never alarms before the minimum number of instances | same, invariant on the minimum p+s; the first eligible element always refreshes the minimum. |
| C17 | DDM flags are exclusive and a change restarts the detector | generic arithmetic; case analysis on one step. |
| C18 | EDDM error distances are exact and it never divides by zero | Model/Eddm.v over R with checked divisions; invariant. |
| C19 | EDDM never alarms before 30 errors and 30 samples | generic arithmetic; one step analysis from an arbitrary state. |
| C20 | Page-Hinkley mean is exact and its statistic is non-negative | Model/PageHinkley.v over R; invariant. |
| C21 | KSWIN window never exceeds window_size and holds the newest elements | Model/Kswin.v: KS test result and random choice as oracle arguments; generic element type; induction. |
| C22 | KSWIN accepts every stream for every accepted configuration | refuted for window_size <= stat_size+1 by concrete run; universal theorem for window_size >= 2*stat_size. |
| C23 | HDDM_A implements the A-test exactly and never raises | Model/HddmA.v, checked divisions, over R; invariant n_estimation > 0 whenever used as divisor. |
| C24 | HDDM_W two_side_option selects two-sided monitoring | Model/HddmW.v: bisimulation between the two option values for all streams: refutes the property. |
| C25 | HDDM_W estimation is an exponentially weighted mean of the inputs | Model/HddmW.v over R; invariant. |
| C26 | Drift detectors: reset equals reconstruction | reset state equality for each detector. |
| C27 | Classification evaluator: cells and marginals are the weighted counts | Model/ClassEval.v (dict as association list); counting invariants by induction over results; over Z/R weights. |
| C28 | Classification evaluator: accuracy is the fraction of correct predictions | accuracy for unit weights proved; refuted for weights by a concrete run. |
| C29 | Classification evaluator: all scores are in range and never raise | R model; sums of non-negative counts; each score's range. |
| C30 | Windowed classification evaluator equals a fresh evaluator fed with the last window_size results | windowed model; invariant "matrix = matrix of queue contents". |
| C31 | Classification evaluator: kappa is Cohen's kappa | R model; recomputation from the list of results. |
| C32 | F1 of a requested class is that class's F1 | refuted by concrete run; proved for class 1 / multiclass. |
| C33 | Evaluator reset returns to the constructed state | state equality; refuted for the windowed evaluator (n_classes) by a concrete run. |
| C34 | Multi-label evaluator: Hamming score is the fraction of correctly predicted labels | Model/MultiLabelEval.v; refuted by a run with correct zeros; universal characterisation of what is computed. |
| C35 | Multi-label evaluator: exact match and Jaccard index are exact averages in [0,1] | R model; induction. |
| C36 | Regression measurements are exact means | Model/RegMeasures.v over R; windowed sums invariants. |
| C37 | DataStream delivers every sample exactly once and in order | Model/DataStream.v: slicing as firstn/skipn; induction over batch lists. |
| C38 | n_remaining_samples and has_more_samples agree with what is left | same; refuted for over-reading by concrete run; proved for histories that do not over-read. |
| C39 | TimeManager hands out each queued sample exactly once, not before its label is available | Model/TimeManager.v: sort is any function returning a sorted permutation (argument); induction over calls, multiset reasoning. |
| C40 | TimeManager.next_sample returns the oldest queued samples | same; refuted with weights (KeyError), proved without. |
| C41 | Prequential evaluation tests every sample before training on it | Model/EvalPrequential.v: loop emitting an event trace over an arbitrary finite stream and models; trace theorem by induction. |
| C42 | Prequential evaluation processes no more than max_samples samples | same; refuted for batch sizes not dividing max_samples; universal bound max_samples + batch_size - 1. |
| C43 | Holdout evaluation never trains on test samples | Model/EvalHoldout.v; trace with stream positions. |
| C44 | Delayed prequential evaluation trains only on labels already available | Model/EvaluateDelayed.v over Model/TimeManager.v; trace invariant in Proofs/DelayedProofs.v; refuted for pretrain_size=0 and for weighted streams |
| C45 | WindowedMinmaxScaler scales features into the unit interval | Model/Scalers.v over R: universal theorem that transform is the identity (or 0); refutes the property. |
| C46 | WindowedStandardScaler centres with the statistics of the last window_size rows | Model/Transform.v with a memory of rows; run equals a memoryless specification, by induction over calls, rows and cells. |
| C47 | MissingValuesCleaner leaves no missing value behind and does not touch other cells | Model/MissingValues.v generic. |
| C48 | OneHotToCategorical decodes every one-hot block and copies the other columns | Model/OneHot.v; refuted for layouts with plain columns after the last block; universal theorem for layouts ending with a block. |
| C49 | Numeric regression observer (E-BST): every candidate split partitions the observed data exactly | Model/Ebst.v (tree, search with threaded auxiliary sums); invariant: a node's statistics are those of the observations up to its cut within its range; targets indexed by an arbitrary type |
| C50 | Numeric regression observer returns the best candidate split | Model/Ebst.v search = fold over the increasing cut points keeping the first of maximal merit; for every merit function |
| C51 | Nominal class observer: counts and split distributions are exact | Model/NominalObs.v; per-value per-class weights as sums over the history, by induction; best candidate shown optimal among all binary and multiway splits |
| C52 | Gaussian estimator is an exact weighted mean and variance | Model/GaussianObs.v `gauss`, invariant (W, weighted mean, weighted squared deviations) by induction on the history over R |
| C53 | Numeric class observer (binary tree) records observations | Model/SplitTests.v `ctree_*`; universal theorem: after any history every update raises KeyError, which refutes the property |
| C54 | Split tests send every instance to exactly one branch consistent with the rule text | Model/SplitTests.v; case analysis over R for binary tests, inverse-map invariant over every sequence of added branches for the multiway test; refuted for att_idx = len(X) and for nan |
| C55 | Class split criteria stay in their declared range, regression criterion never divides by zero | Model/SplitCriteria.v over R; sums re-indexed by class, Titu's lemma, Gibbs' inequality (ln x <= x - 1) |
| C56 | No drift detector alarms on a constant stream | corollaries of the decision rule theorems C20, C23, C57-C59. |
| C57 | DDM decides by the published rule | Spec/DdmSpec.v states the rule over the segment; invariant in Proofs/DdmProofs.v. |
| C58 | EDDM decides by the published rule | Spec/EddmSpec.v defines distances and the statistic over the segment; invariant in Proofs/EddmProofs.v (Welford). |
| C59 | HDDM_W decides by the one-sided W-test | Spec/HddmWSpec.v states the test over the segment; invariant in Proofs/HddmWProofs.v. |
| C60 | ADWIN answers by the stated cut rule | pure scan over the movable buckets; equivalence with the two nested loops by induction over rows and cells |
| C61 | utils.ConfusionMatrix.remove outside the matrix answers False | closed form of remove outside the matrix |
| C62 | MOLConfusionMatrix counts exactly what was reported | invariant against a tally over the history |
| C63 | FastComplexBuffer is a bounded FIFO of entries | reduction to the FastBuffer refinement |
| C64 | Kappa-T, Kappa-M and the majority class use the right baselines | Same model as C27. Spec functions repeat_weight and relation majority_weight over the history; invariant proof. |
| C65 | Precision, recall and geometric mean are the textbook quantities | Same model as C27; scores computed from the invariant on cells and marginals. |
| C66 | Windowed macro scores only depend on the results in the window | False: classes never leave the matrix. Refutation by an executable history. |
| C67 | Multi-label evaluator: a rejected result leaves no trace | Proved for lengths and NaN for all states; refuted for label values outside {0,1} (sample counted before the check). |
| C68 | Multi-target regression measurements are averages of per-target errors | Model/RegMetrics.v; invariant: the accumulator is the vector of per-target sums over the window; lifted by induction. |
| C69 | Running time measurements add up the measured intervals | Model/RegMetrics.v with the clock reading as an argument; induction on the actions. |
| C70 | hamming_score, j_index and exact_match are the textbook scores | Model/MultiTargetClass.v; counts of agreeing, common and united labels; algebra per sample, then means. |
| C71 | Incremental multi-target scores equal the batch functions | Invariant relating the MOL matrix, the counters and the buffers to the history. |
| C72 | The windowed multi-target matrix counts the window only | False (remove is called with two of its three arguments); executable refutation and the exact value proved. |
| C73 | Every column of the table is a feature or a target, and none is lost | Model/DataStream.v: table as names, dtypes, rows; proof by splitting rows at the block; refuted for duplicate column names |
| C74 | With the default target_idx the last n_targets columns are the targets | FileStream proved; DataStream refuted for every n >= 2 (delivers empty targets) |
| C75 | target_values and n_classes describe the labels that occur | np.unique modelled as ordered insertion; membership and sortedness by induction |
| C76 | Inconsistent data are refused at construction | case analysis over the model |
| C77 | TemporalDataStream keeps each row's targets, times and weight together | argsort and sort as arguments satisfying their contract; permutation of the zipped rows |
| C78 | restart() clears the last sample | DataStream proved; refuted for TemporalDataStream, which inherits restart |
| C79 | A completed evaluation returns and its final report covers everything evaluated | Model/Evaluate.v: trace semantics; progress bar division modelled. Proved from 20 samples on; below 20 samples refuted for every stream and learner. |
| C80 | Delayed evaluation trains each sample with its own weight | refutation run on Model/EvaluateDelayed.v |
| C81 | Delayed evaluation reports and returns on every finite stream | refuted: invariant that the count stays strictly between 0 and n_wait |
| C82 | Delayed evaluation draws no more than max_samples samples | refuted: with labels later than the last arrival the whole stream is drawn |
| C83 | Transforming the array a scaler was fitted on does not corrupt its statistics | Rows are references in the model; refuted by a run. |
| C84 | Transforms leave the caller's array unchanged | Rows are references in the model; the output is the caller's memory (proved for every step), refuted by a run. |
| C85 | Replacement values are computed from the known values only | Refuted by a run: markers that are not NaN are averaged in. |
| C86 | Gaussian attribute observer: densities, candidate cuts and the chosen split | Model/GaussianObs.v `gobs`; invariant: the three dictionaries hold min, max and fit of each class; first-maximum lemma for the suggestion loop |
| C87 | Estimated left weight grows with the cut point | refuted: with total weight at most 1 the variance estimate is 0, and the zero-variance branch compares with the mean the wrong way round |
| C88 | Numeric regression observer: pruning removes only bad candidates | Model/Ebst.v remove_bad; weaker tree invariant preserved by pruning |
| C89 | Numeric regression observer: candidates stay exact after pruning and further observations | refuted: the pruned node's observations are forgotten, a re-created node misses them |
| C90 | Nominal class observer: attribute probabilities are smoothed frequencies | Model/NominalObs.v; the per-class dictionaries equal sums over the history |
| C91 | Nominal regression observer: split statistics are exact and the best candidate is returned | Model/NominalObs.v with the target statistics of Model/TargetStats.v |
| C92 | Rule predicates that compare equal accept the same instances | Model/SplitTests.v `pred_eqb`, `covers`; refuted: the value is not compared |
| C93 | A split never looks worse than not splitting | Model/SplitCriteria.v; proved for Gini, information gain and integer-weight variance reduction; refuted for fractional weights and for the multi-target criterion |
| C94 | Hellinger and variance-reduction merits stay in their declared range and rank a perfect split first | Model/SplitCriteria.v; refuted: Hellinger reaches sqrt 2 > log2 2, a perfect split recorded by the observers gets 0, variance reduction is unbounded while the declared range is 1 |
| C95 | Generator batches | gen_rows is a state monad loop; gen_rows over n+m splits; induction on the list of batches. |
| C96 | Generator restart | State after restart equals the fresh state up to the last batch; the concept index is never reset, shown by runs. |
| C97 | Generator labels follow the documented concept | Each loop body is related to a direct specification of the concept over R. |
| C98 | Balanced generators alternate the classes | Invariant on the next_class_should_be_zero flag. |
| C99 | noise_percentage is the probability of a label flip | Universal theorem for 0.9%, constant source for 100%. |
| C100 | AGRAWAL attributes | Clipping lemmas; swapped bounds give a two-valued result. |
| C101 | LED displays | The table is computed for all residues by the kernel, then lifted to every random source. |
| C102 | Rotating hyperplane | Invariant: weight vector lengths and directions of plus or minus one. |
| C103 | Waveform mixes two base waves | Pointwise lemma over the wave lists; base waves specified by their formula. |
| C104 | ConceptDriftStream interleaves its streams | Induction on the sample loop with a merge relation. |
| C105 | Concept drift schedule | Real analysis of the logistic function. |
| C106 | ConceptDriftStream bookkeeping | Direct; runs for the refutations. |
| C107 | Stored generators deliver their data once and in order | Slices of consecutive batches concatenate; np.resize repeats rows. |
| C108 | AnomalySineGenerator | Index assignment lemma, counting over the drawn positions. |
| C109 | Weighted choice of a centroid | Invariant of the prefix sum loop. |
| C110 | RandomRBF samples | Norm of the scaled offset vector. |
| C111 | Drifting RBF centroids stay in the unit cube | Invariant: unit-norm speeds and centres in the cube. |
| C112 | RandomTree concept | Induction on the depth with a well-formedness relation; totality of classification. |
| C113 | KNNClassifier votes with the k nearest samples of the window | Model/Knn.v on top of the SlidingWindow model, KDTree as an argument satisfying k_nearest; invariant window = wrun; votes by induction over the neighbours. Negative labels refuted. |
| C114 | KNNRegressor predicts the mean or median of the k nearest targets | Single row: proved over R (sorting proved a sorted permutation). Batch: refuted, neighbours are pooled. |
| C115 | KNNADWINClassifier keeps exactly the samples its detector has kept | Invariant over a detector interface, then ADWIN of Model/Adwin.v proved to meet the interface for every number type. |
| C116 | reset gives a nearest neighbour classifier as new | Two-run theorem: same window, same probability per label, same predictions; the width of predict_proba is refuted. |
| C117 | A nearest neighbour classifier can eventually use its window | Refuted for max_window_size < n_neighbors: for every history every prediction is 0. |
| C118 | Naive Bayes answers with the posterior of Bayes' rule | Model/NaiveBayes.v over the observer models; invariant tying every observer to its column of the history, lifted over calls; row theorem over R. |
| C119 | Naive Bayes accepts the documented array arguments | REFUTED: truth value of an array of more than one element; every later partial_fit raises. |
| C120 | Naive Bayes predicts even after a label outside classes was learned | REFUTED: every prediction raises IndexError once such a sample was learned, for all histories. |
| C121 | Tree measurements are those of the tree | generic tree skeleton, invariant counters_right over all runs |
| C122 | A training sample changes the tree only where it arrives | frame theorem of the skeleton, relation reaches |
| C123 | A training sample is counted at the leaf it reaches | skeleton theorem plus dictionary lemma |
| C124 | The tree only grows between resets | induction over the rows of a call |
| C125 | The memory limit keeps the most promising leaves active | sortedness of the ranking, counters of the (de)activation loops |
| C126 | stop_mem_management stops the growth when the memory limit is hit | witness run on floats, continuation by the growth theorem |
| C127 | A Hoeffding tree leaf splits exactly when the Hoeffding test passes | TreeProofs.split_cause, SplitRuleProofs.decide_iff (stable sort, best and others), Props/HoeffdingSplitProps |
| C128 | remove_poor_atts lets the tree split | refuted: no reached state has a decision node |
| C129 | A pre-pruned leaf is deactivated | refuted: with room in memory the number of inactive leaves is 0 in every reached state |
| C130 | A split separates samples | refuted by a float run: one-branch splits that repeat |
| C131 | reset() forgets the classes of a Hoeffding tree | refuted: classes never change once set, and predict_proba raises IndexError after reset |
| C132 | Dynamic Weighted Majority keeps between 1 and n_estimators experts with weights in (0,1] | Model/Experts.v; invariant of dwm_one lifted to all runs (Proofs/ExpertProofs.v, ExpertRunProofs.v). |
| C133 | Each sample given to Dynamic Weighted Majority is one round of the published algorithm | dwm_one refines the relation round of Spec/ExpertSpec.v. |
| C134 | Dynamic Weighted Majority never fails on valid input | Totality by the invariant of C132 and an invariant on the labels of the estimators. |
| C135 | Expert ensembles predict the label their experts vote for | Mean characterised over R; counterexample run with NaiveBayes and three labels. |
| C136 | Sample weights work with batches in the expert ensembles | Refuted: with NaiveBayes every such call raises; without weights a batch equals its samples one by one. |
| C137 | Additive Expert Ensemble: number of experts and normalised weights | Invariant of ae_one lifted to runs. |
| C138 | pruning='oldest' keeps the youngest experts | ae_one refined to addexp_step with lastn. |
| C139 | pruning='weakest' removes the weakest expert | Refuted: the list is sorted ascending but the insertion assumes descending order, so the new expert is thrown away whenever it is heavier than some old one, and an old heavier one goes when it is the weakest; with n_estimators*gamma > 1 a full ensemble never takes a new expert. |
| C140 | A Hoeffding tree leaf predicts by its leaf_prediction strategy | Leaf invariant over the samples since the last reset (Spec/LeafSpec.v); reuse of the Naive Bayes invariant; hits relation for the two counters. Proofs/LeafProofs.v, Props/HoeffdingPredictProps.v. |
| C141 | predict_proba of a Hoeffding tree gives the shares of the votes | Direct, on the model of predict_proba over the reals. |
| C142 | An instance follows the branches its tests ask for | Test invariant of reachable trees, induction on the path. |
| C143 | The size estimate enforces the memory limit exactly when the tree is too large | The enforcement lemmas of C125, applied to the state after the sample was learned. |
| C144 | Oza bagging: the classes contract and the size of the ensemble | Model/Bagging.v; invariant on the size over runs; set equality specified independently. |
| C145 | Oza bagging: online bootstrap | Fold over rows related to a flat repetition of the rows with the drawn numbers (column i of a row-major table). |
| C146 | Oza bagging: probabilities and labels | Sums over members by induction; normalisation over R. |
| C147 | Bagging: reset gives a new ensemble | Direct refutation for every state. |
| C148 | Oza bagging with ADWIN: the worst member is reset | Argmax over the estimates; exact description of a call. |
| C149 | Leveraging bagging: the worst member is replaced | Induction over the members, argmax of the estimates. |
| C150 | Leveraging bagging: how often a member learns | Part of the theorem about one sample. |
| C151 | Leveraging bagging: output codes | Parity argument by induction on fuel. |
| C152 | Online imbalanced-stream ensembles: classes contract and size | Model/OnlineEnsembles.v (one skeleton, six algorithms), invariant over on_reached |
| C153 | Online ensembles: reset gives a new object | refuted: the classes stay |
| C154 | Online boosting: error shares and rates | boost_step over the reals; invariant boost_ok; row_pass |
| C155 | Boosted votes: better members have a greater say | weighted sums proved; refuted: members without errors have weight 0, an ensemble of perfect members always predicts 0 |
| C156 | AdaC2: costs, weighted accuracy and rates | adac2_step over the reals |
| C157 | AdaC2 works with more classes than estimators | refuted: wacc and werr are not enlarged, IndexError |
| C158 | CSB2 treats right answers like AdaBoost and costs each error with its own cost | refuted by the exact step: csb_rule |
| C159 | RUSBoost: sampling rates | rus_step over the reals; positive and negative samples are counted once per member, which the theorem states |
| C160 | Under/over bagging: rates and votes | uob_step; weighted votes with weight 1 |
| C161 | SMOTE bagging: synthetic samples | refuted: the neighbour is always the first positive sample stored, the synthetic sample lies beyond, and each sample is stored once per member |
| C162 | Online ensembles: the worst member is reset at a drift | refuted: a member of greatest estimated accuracy is reset |
| C163 | Online ensembles: one mark per sample for each ADWIN | refuted: r rows give r*r marks |
| C164 | Online ensembles do not fail | totality of each step under its invariant, lifted over runs |
| C165 | Each output of a multi-output learner is learnt and predicted by its own estimator | replay of each column through an arbitrary base estimator; induction over histories |
| C166 | predict_proba of a multi-output learner gives the probability of each label of each output | refutation by a three-label and a one-label estimator; positive part: it is the second column |
| C167 | A multi-output learner can train any base estimator | refutation: estimator with classes but without sample_weight |
| C168 | Chains train member j on the instance followed by the earlier targets | replay through an arbitrary base estimator; invariant over histories |
| C169 | Chain predictions come in the order of the targets | argsort of a permutation is its inverse |
| C170 | Chain probabilities come in the order of the targets | proved for the default order; refuted for order='random' |
| C171 | The probabilistic classifier chain predicts the most probable labels | exhaustive-search invariant over the reals; refuted for order='random' |
| C172 | The Monte Carlo chain answers with the best of its candidates | invariant of the sampling loop |
| C173 | A rejected call leaves a multi-output model usable | refutations: the number of targets is stored before it is checked |
| C174 | reset makes a chain behave like a new one | bisimulation of states that differ in the stale order only |
| C175 | Batch-incremental members are trained on the last full windows | Model/Windowed.v; invariant by induction over the rows and calls (batch_windows, batch_never_fails) |
| C176 | Batch-incremental prediction is a majority vote over the labels | batch_majority over the reals for 0/1; batch_labels_01 and a run refuting the general statement |
| C177 | Batch-incremental training uses the sample weights | batch_weights_refuted for all states; batch_last_weight_refuted as a run |
| C178 | A failed training of a member does not disable the ensemble | batch_stuck for all histories, batch_failed_fit_refuted as a run with an estimator refusing single-label windows |
| C179 | The accuracy weighted ensemble depends on the stream only through its windows | Model/Windowed.v; awe_windows by induction over rows and calls |
| C180 | Members are weighted by their gain over a random classifier on the last window | Spec/WindowedSpec.v reweighted/admitted; awe_weights, awe_weights_nonneg |
| C181 | The weight of a new member is cross-validated | awe_cross_validation; awe_cross_validation_refuted |
| C182 | Accuracy weighted voting | awe_vote (top, support in Spec/WindowedSpec.v), awe_same_label for all calls, awe_batch_refuted as a run |
| C183 | The probability of the true label is the one compared | awe_columns_refuted, awe_rare_label_refuted |
| C184 | The accuracy weighted ensemble does not fail | awe_never_fails by induction |
| C185 | Learn++ builds one ensemble per full window from members that passed their test | state-machine invariant over the reals |
| C186 | Learn++ predicts the label with the greatest total vote | induction over ensembles and members |
| C187 | Learn++ training ends | fuelled loops: measure for termination, induction on fuel for the endless run |
| C188 | A member that learns its window ends the construction of the Learn++ ensemble | symbolic execution of the loop over the reals |
| C189 | Learn++ goes on learning after a window that was too hard | induction over histories |
| C190 | Learn++ requires consistent classes | case analysis |
| C191 | Learn++ predicts labels | concrete runs |
| C192 | Learn++.NSE's members are trained on full windows | LearnNSE.v nse_run; invariant over runs with cut/kept from the spec |
| C193 | Learn++.NSE's voting weights average the errors over windows | Invariant: members_after history; the sum of the recorded weights exceeds 1 after the second window (refutes the average) |
| C194 | Learn++.NSE records the errors of members on every window | Refute: a perfect ensemble gives all rows weight 0; theorem for all states and a concrete run |
| C195 | Learn++.NSE's error pruning drops the worst member | worst_of equals the first maximum of the errors |
| C196 | Learn++.NSE predicts the class with the greatest weighted vote | Proved for positions of classes when no member has exactly one column; refuted for one-column members (broadcast) and for labels (positions are returned) |
| C197 | Learn++.NSE goes on after a failed window | Refuted: the window stays a numpy array without append; theorem for all later histories |
| C198 | Learn++.NSE checks the classes | First half proved; second half refuted: later classes are ignored |
| C199 | Learn++.NSE does not fail on well-formed input | Proved for classes given as an array; refuted for a list (as in the documented example) |
| C200 | Pipeline training feeds each step with the previous step's output | Row-wise run equals column-wise relation (in_a_row/taught), both directions; None steps and fit_transform-only lookups refuted |
| C201 | Pipeline.predict composes the transforms | iff theorem with relation transformed |
| C202 | Pipeline refuses exactly the unusable steps | Exact condition proved; the documented one refuted in both directions |
| C203 | Pipeline.partial_fit is all or nothing | Refuted by a run |
| C204 | Pipeline.partial_fit_predict is partial_fit then predict | Proved without classes; refuted for estimators that need classes in the first call, which it cannot pass |
| C205 | Pipeline.named_steps finds each step | Direct |
| C206 | Half-space trees: the mass profiles count the instances of their windows | snoc induction over the instances with the closed form of the two windows; the first-window clause is refuted for every history (root mass n-1, then 1) |
| C207 | Half-space trees: a trained detector tells instances apart | refuted: from w+2 to 2w instances every instance gets 1 - 2/(w 2^depth) |
| C208 | Half-space trees: probabilities | mass bound w from C206, path length bound from full trees, running mean = arithmetic mean |
| C209 | Half-space trees: predictions | proved for one instance; refuted for batches: every row gets the answer of the first |
| C210 | Half-space trees: the trees | induction on the depth with the bounds invariant; halving and the use of the last feature refuted |
| C211 | Half-space trees: training never fails | proved for two features or more, or depth 1; refuted for one feature (ValueError from randint) |
| C212 | Adaptive random forest: what each tree has learnt | Invariant over the life of one member (induction on its rows), lifted to the forest by induction on calls. |
| C213 | Adaptive random forest: performance of a tree | Induction over the life of one member, the answers being those of the member as it was after the earlier rows. |
| C214 | Adaptive random forest: sample weights | Simulation between two runs that differ in the evaluators only. |
| C215 | Adaptive random forest: max_features and reset | Case analysis; the state after reset is compared. |
| C216 | Adaptive random forest: labels beyond the announced classes | Induction over the votes; a run. |
| C217 | Adaptive random forest: weighted votes | Sums over the reals; runs over the rationals with the modelled evaluator. |
| C218 | Adaptive random forest: when trees are replaced | Case analysis of one row from any reachable member. |
| C219 | AdaptiveRandomForestRegressor: every tree has learnt exactly the rows since it was made | Model the forest and its members with trees, detectors and evaluators as arguments; an invariant of each member over its rows, lifted to histories by induction. |
| C220 | AdaptiveRandomForestRegressor: drifts and warnings are where the detectors report them | One step of the model of a member, with the invariant that the normaliser covers the rows learnt since the last drift. |
| C221 | AdaptiveRandomForestRegressor: detectors are told numbers between 0 and 1 | Welford's recurrence against mean and squared deviations by induction over the reals; Samuelson's inequality gives the bound for at most ten values; eleven values refute it. |
| C222 | AdaptiveRandomForestRegressor: max_features | Case analysis of the model; the last part is refuted for every state. |
| C223 | AdaptiveRandomForestRegressor: the prediction is a sound average of the trees' answers | Over the reals, by induction on the lists; refuted for a single tree (nan) and for new trees. |
| C224 | Streaming random patches: every estimator learns exactly the rows it should | Model/RandomPatches.v; life of a member as an inductive relation, invariant by induction on it, lifted to histories of calls |
| C225 | Streaming random patches: evaluators and detectors | as C224, with the answers of earlier states of the member |
| C226 | Streaming random patches: subspaces | combinations by recursion on the offset against a binomial coefficient; the loop with fuel, no fuel is enough |
| C227 | Streaming random patches: the training method stays the one chosen | refutation for all settings with a subspace of no or all features |
| C228 | Streaming random patches: nominal features | part of the life of an estimator (sgrown); counterexamples by running the model |
| C229 | Streaming random patches: sample weights | relational invariant between two runs with different weights: equal but for the evaluators |
| C230 | Streaming random patches: votes | sums over the reals; refutations of normalisation, of the weight of accuracy 0, and of several instances |
| C231 | get_params lists exactly the reachable parameters | Heap model of objects; induction on the depth, with a lemma that names joined with '__' can be taken apart. |
| C232 | set_params sets exactly the named parameters | Loop invariant over the arguments; induction on the path. |
| C233 | Setting the parameters an estimator has changes nothing | Induction on the depth with an invariant for the two loops. |
| C234 | A component can be replaced and configured in one call | Direct computation on the heap model for arbitrary objects. |
| C235 | A refused set_params changes nothing | Refutation for every estimator and parameter; the positive part for an unknown name that comes first. |
| C236 | A clone is an independent, untrained copy | Copy relation on heaps, stable when the heap grows; induction on the depth of calls. |
| C237 | Every estimator of the library can be cloned and configured | The constructors of the two classes as instances of the model; refutation for all their parameters. |
| C238 | HoeffdingTreeRegressor's measurements are those of its tree | structural invariant of the shared tree skeleton, lifted by induction over the history |
| C239 | A sample changes HoeffdingTreeRegressor only where it arrives | frame theorem of the tree skeleton |
| C240 | The leaf a sample reaches gains exactly its weight, target and squared target | case analysis of fit_one and invariants |
| C241 | Between resets a regression tree only grows | induction on the batch |
| C242 | HoeffdingTreeRegressor with mean leaves answers within the range of the targets | cone invariant (lo*w <= s <= hi*w) of leaves, search-tree nodes and distributions |
| C243 | The split rule of HoeffdingTreeRegressor | specification ratio_wins stated by order, compared with sorting |
| C244 | Perceptron leaves keep normalised weights and answer within three standard deviations | unit-norm invariant, bound of a dot product, standard deviation from sums |
| C245 | The regressor standardises by the mean and deviation of what it saw | induction on samples; structural theorem for the failure |
| C246 | reset gives back a new HoeffdingTreeRegressor | simulation; a concrete run for the refutation |
| C247 | predict gives one number per row | by definition of predict and induction |
| C248 | A sample of small weight trains a perceptron leaf | case analysis |
| C249 | Options of the split attempt do not break training | rational runs |
| C250 | RSLVQ predicts the class of the nearest prototype | arg max of -d^2/(2 sigma) is arg min of d; over the reals. |
| C251 | RSLVQ answers only declared classes | Proved once every class was seen; refuted for a declared class not seen yet: its prototypes are uninitialised memory and predict answers whatever integer lies there. |
| C252 | RSLVQ prototypes start at the class mean | Invariant relating protos_initialized to the labels seen; part of rs_training (start). |
| C253 | RSLVQ training attracts the right prototype and repels the wrong one | lvq_steps over the reals with the posteriors of a Gaussian mixture; distances proved for sigma >= 1/2; refuted for sigma <= 1/4, where every attraction ends farther away. |
| C254 | RSLVQ adadelta steps go the right way | Invariant on the accumulators, sign of the step. |
| C255 | RSLVQ refuses unknown labels | Proved after the first call; refuted for the first call (UnboundLocalError) and for an array of classes (ValueError). |
| C256 | RSLVQ starts from the initial prototypes and leaves them alone | Refuted: a list restarts training in every call, an array is trained in place. |
| C257 | RSLVQ constructor checks | Refuted: sigma = 0 is ZeroDivisionError, a list is TypeError. |
| C258 | RSLVQ training does not depend on how rows are cut into calls | The loop variables that survive between samples of a call are shown not to matter. |
| C259 | SAM-kNN without long-term memory is k nearest neighbours | n_arg_min proved to give the n least positions, the two elections proved to give the winner (elects); int8 run refutes the labels |
| C260 | SAM-kNN answers with the memory that was right most often | invariant over the stream: the kept records are right_at of the last |STM| samples |
| C261 | The short-term memory is the recent past | suffix invariant by induction over the stream |
| C262 | SAM-kNN always predicts | totality of the neighbour search for n <= size |
| C263 | max_window_size bounds the memories | size invariant over the reals, clustering proved to shrink when a label occurs twice; a run refutes the rest |
| C264 | SAM-kNN training never fails | invariant for maxACC; general refutation for None |
| C265 | Cleaning removes exactly the contradicting samples | clean_one against contradicts/leaves; one training step |
| C266 | The window with the best interleaved accuracy is kept | extend_tests lemma for remembered results; measured invariant; a run of six samples refutes |
| C267 | min_stm_size below n_neighbors keeps the memory small | invariant: size below 2m and only history 0 is remembered |
| C268 | The extremely fast decision tree remembers all its samples at the root | Model/Efdt.v; invariant over runs; the root is followed through update, replacement and memory management |
| C269 | The extremely fast decision tree uses the weight of every sample | refuted: with two or more rows the first weight is used for all of them (general theorem and a run) |
| C270 | The counters of the extremely fast decision tree are right | proved when all splits have two branches and memory does not bind; refuted with inactive leaves (-1 active leaves) |
| C271 | The split rule and the kill rule of the extremely fast decision tree | equivalences between the result of the walk and the rule stated with best suggestion and bound |
| C272 | The extremely fast decision tree does not make splits that separate nothing | refuted: a run in which such a split is made, killed and made again at every other sample |
| C273 | A split node is re-evaluated once per min_samples_reevaluate samples | refuted in general: a node that is due stays due; and a run in which the test changes at consecutive samples of weight 1 |
| C274 | Updating the test of a split node keeps values with their leaves | refuted: a run in which a value seen with one class only is answered with another class after samples with another value |
| C275 | The classes of the extremely fast decision tree are fixed by the first call that gives them | induction over the history |
| C276 | Rows of predict_proba of the extremely fast decision tree | as C141 |
| C277 | A rule learner trains the rules that fire | model the rule list as a list and fitting as a fold; characterise the step by `fires` |
| C278 | There are never more than max_rules rules | induction over histories; a float run |
| C279 | The suggestion of an attribute is its best candidate | loop invariant over the candidates |
| C280 | A rule that takes up a condition fires on fewer samples | fires as a conjunction; case analysis on the kind of condition |
| C281 | The half of the split that is kept is the purer one | entropy over the reals; a float run |
| C282 | FOIL gain makes rules that gather the label | logarithms over the reals; float runs |
| C283 | A rule whose predictions go wrong is removed | the detector is an argument; invariant told_zeros of DDM |
| C284 | New rules come from a suggestion with information | float run |
| C285 | First hit: the first rule that fires predicts | walk over the rule list |
| C286 | Weighted max: the rule with the greatest vote predicts | fold invariant |
| C287 | Weighted sum: the shares of the rules that fire are averaged | induction over the rules that fire |
| C288 | predict_proba is the share of every label | mapM and dict lemmas |
| C289 | Disabling poor attributes leaves the predictions of the others | product with a zero factor |
| C290 | Rule learning does not depend on how samples are batched | foldM over append |
| C291 | Rules vote only for labels that were learnt | invariant over all dictionaries of the model |
| C292 | reset, descriptions | computation |
| C293 | Alternate trees of the adaptive tree stay single leaves | invariant, nested induction over the tree |
| C294 | The node counters of the adaptive tree are right | invariant; float runs |
| C295 | A leaf of the adaptive tree can always be trained | invariant; float run |
| C296 | The adaptive tree answers with the leaf of the main tree | induction over the path; dictionary sums |
| C297 | The error weight of a leaf does not change its answer | rows of predict_proba do not change when the votes are scaled |
| C298 | When an alternate tree replaces a node, and when it is dropped | case analysis of the step on well-formed trees |
| C299 | An alternate tree replaces a node only when it is better | float run; case analysis |
| C300 | Bootstrap sampling draws the weight of a sample | computation |
| C301 | nb_threshold delays naive Bayes in the adaptive tree | equality of the runs |
| C302 | A Hoeffding tree votes only for labels it was taught | invariant over all nodes of the tree, including split nodes |
| C303 | Label combinations and class numbers are one-to-one | induction on digits |
| C304 | The label combination tree is a Hoeffding tree over combination numbers | simulation |
| C305 | Label combination predictions have n_labels zeros and ones | bound on the length of the rows of predict_proba |
| C306 | Predicted labels and combinations were taught | invariant: no negative weight in any node or observer |
| C307 | The label combination tree checks its label vectors | computation |
| C308 | How leaves predict does not change the tree that grows | relational invariant between the two runs |
| C309 | The leaf model of a regression tree does not change the tree that grows | relational invariant between the two runs |
| C310 | Leaves of the forests' trees watch the attributes they chose | diagonal relational invariant |
| C311 | The forests' trees split only on attributes the leaf chose | cause of a split plus the invariant of C310 |
| C312 | Attributes the classifier's leaves do not choose do not matter | relational invariant between two runs |
| C313 | A forest tree that draws every attribute is a Hoeffding tree | simulation |
| C314 | Drawing more attributes than there are is refused | computation on the first sample |
| C315 | The counters of a forest tree are the numbers of its nodes | invariant of the tree skeleton |
| C316 | Disabling poor attributes leaves Naive Bayes predictions alone | computation |
| C317 | Attributes the regressor's leaves do not choose do not matter | relational invariant between two runs |
| C318 | A forest regression tree that draws every attribute is a Hoeffding tree regressor | simulation |
| C319 | A new leaf waits for a grace period of its own | invariant over the leaves without observers |
| C320 | The measurements of a multi-target tree are those of its tree | invariant of the tree skeleton |
| C321 | A sample changes a multi-target tree only where it arrives | path induction on the tree |
| C322 | Between resets a multi-target tree only grows | invariant of the tree skeleton |
| C323 | The split rule of multi-target trees | decomposition of the decision |
| C324 | Multi-target predictions have a row per instance and a column per target | induction on the rows; computation |
| C325 | Which multi-target tree grows does not depend on the leaf predictions | simulation |
| C326 | Adaptive multi-target leaves answer with one of their predictors | simulations between the models |
| C327 | The order of the targets does not matter to iSOUP trees | relational invariant between the two runs |
| C328 | Multi-target trees answer within the range of what they saw | invariants over statistics, observers and weights |
| C329 | reset gives back a new multi-target tree | relational invariant; computation |
| C330 | Alternate trees of the adaptive regression tree never grow | invariant of runs through the generic adaptive tree |
| C331 | An adaptive regression tree answers with one leaf of its main tree | routing lemma and the structure invariant |
| C332 | What becomes of an alternate tree of the adaptive regression tree | case analysis of a learning step of the generic adaptive tree |
| C333 | A sample leaves the other branches of an adaptive regression tree alone | case analysis of a learning step |
| C334 | Bootstrap weights of the adaptive regression tree | inversion of the leaf's learning step |
| C335 | What the detectors of the adaptive regression tree are told | history of errors as an invariant of runs; Welford's recurrence; Samuelson's inequality |
| C336 | leaf_prediction='mean' does without perceptrons | computation |
| C337 | reset gives back a new adaptive regression tree | computation |
| C338 | Without drift the adaptive regression tree is the regression tree | simulation between the generic adaptive tree and the generic tree |
| C339 | Mean answers of the adaptive regression tree stay within the targets | invariant of leaves and split statistics through the generic adaptive tree |
| C340 | Adaptive leaves of iSOUP trees choose the predictor with the smaller faded error | invariant of leaves over runs; the faded sum by induction over passes |
| C341 | Adaptive leaves of stacked single-target trees choose among three predictors by faded error | invariant of leaves over runs; case analysis of the choice |
| C342 | The rules of a Hoeffding tree split the instances as its leaves do | Invariant: tests read existing attributes and multiway tests invert their branch map; induction over the tree against route. |
| C343 | get_model_rules answers one rule per leaf, or fails on a leaf without statistics | Induction over well-formed trees. |
| C344 | The class of a rule is the predicted class | C342 with the shares of predict_proba and the first maximum of argmax. |
| C345 | Which metrics an evaluator accepts for one target | set operations as statements about members |
| C346 | Which metrics an evaluator accepts for several targets | set operations as statements about members |
| C347 | An evaluator reports the metrics asked for, costs last | partition of a list |
| C348 | Every reported line matches the header | induction over the metrics, table of the measurements' methods |
| C349 | The output file holds the header and a first part of the lines | invariant of the buffer over events |
| C350 | Constructing an evaluator leaves the list of metrics alone | lengths of lists |
| C351 | The default reset calls the constructor once, or not at all | the text is read back by a parser, by induction over values |
| C352 | When the default reset passes the same parameters | C351 and the fixed points of what is kept |
| C353 | reset restores every object as constructed | computation |
| C354 | Areas under the normal curve are probabilities | Horner schemes compared coefficient by coefficient; cases on the ranges |
| C355 | Observers and trees with the library's normal distribution | C354 discharges the condition on the distribution in C86 and C306 |
| C356 | What EFDT answers where it has no branch | C268 and the definition of the answering node |
| C357 | The bound that a decision rule is judged by | direct, over the reals |
| C358 | Object sizes count every held object once | loop invariant; the rounds left are bounded by the queue and the parts of objects not seen |
| C359 | A part is never larger than the whole | C358 and sums over sublists |
| C360 | Removing a header keeps every other line and the base file | induction over lines for reading and filtering |
| C361 | A file can be cleaned in place | computation on the file system |
| C362 | The default name of the cleaned file | induction over the name for split |
| C363 | Normalising a dictionary | induction over the items; cells of a heap |
| C364 | Adding dictionaries | induction over the items; cells of a heap |
| C365 | The key of the greatest value | generalised induction over the scan |
| C366 | Classification measurements: confusion matrix | invariant over histories |
| C367 | Classification measurements: accuracy | the diagonal counts the equal pairs, induction over results |
| C368 | Classification measurements: precision and recall | counting, case analysis of the position of label 1 |
| C369 | Classification measurements: Kappa T | invariant over histories; counterexample computed |
| C370 | Classification measurements: majority class | row sums count true labels; induction over the scan |
| C371 | Classification measurements: Kappa M | invariant over histories |
| C372 | Windowed measurements: matrix and accuracy | invariant over histories: buffers and matrix hold the newest results |
| C373 | Windowed measurements: Kappa T | invariant over histories: the correction buffer holds the repeats of the window |
| C374 | Classification measurements: Cohen's kappa | rows and columns count labels; sums over the known labels |
| C375 | Classification measurements: F1 and G-mean | counting, case analysis |
| C376 | Windowed measurements: Kappa M | invariant over histories: the correction buffer mirrors the window |
| C377 | Validation of weights | case analysis, induction over the copies |
| C378 | Single and empty weights | case analysis |
| C379 | Seeds | induction over draws |
| C380 | Measuring the speed of a stream: batches | induction over the loop, closed form of the count |
| C381 | Measuring the speed of a stream: progress | closed form of the inner loop; counterexample computed |
| C382 | Unsupervised streams can be constructed | induction over the limit |
| C383 | File options | evaluation of attribute lookup |
| C384 | The lines of the plots hold the whole history | model the lines as the lists of their points and prove by induction over the calls what they hold |
| C385 | When the plots are drawn again | model the frame counter with the clock as input; an invariant ties counter and time stamp to the last drawing |
| C386 | The plots show the values | compute the limits with their fold over the models; invariant of the fold |
| C387 | The points of the data points plot | run the buffers of the FastBuffer model over the history of points |
| C388 | Every metric of an evaluator can be plotted | model the position number the code computes and the digits matplotlib reads from it; induction over the metrics |
| C389 | Which arguments a visualizer accepts | model the checks in their order, prove the equivalence by cases |
| C390 | The plot of true and predicted values shows the newest values | fold over the predictions, induction |
