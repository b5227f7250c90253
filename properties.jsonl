{"id": "C01", "title": "FastBuffer is a bounded FIFO holding the most recent elements", "statement": "A FastBuffer created with max_size >= 1 always holds exactly the most recent min(max_size, n) of the n elements it currently owns, in arrival order, whatever sequence of add_element, get_next_element and clear_queue calls was made; its reported current size equals the number of stored elements and never exceeds max_size; is_full/is_empty agree with that size.", "quantifier": "every max_size >= 1, every element type, every finite sequence of buffer operations with batches of every length", "why_tests_cant": "the number of operation interleavings and batch sizes (including batches longer than the buffer) is unbounded", "anchors": ["src/skmultiflow/utils/data_structures.py:FastBuffer.add_element", "src/skmultiflow/utils/data_structures.py:FastBuffer.get_next_element", "src/skmultiflow/utils/data_structures.py:FastBuffer.clear_queue", "src/skmultiflow/utils/data_structures.py:FastBuffer.is_full", "src/skmultiflow/utils/data_structures.py:FastBuffer.is_empty"]}
{"id": "C02", "title": "FastBuffer reports every evicted element exactly once", "statement": "add_element returns None exactly when nothing had to be evicted and otherwise returns, oldest first, precisely the elements that left the buffer; over any history the concatenation of evicted, popped, cleared and still stored elements is exactly the sequence of elements added: nothing is lost, duplicated or reordered.", "quantifier": "every max_size >= 1 and every finite history of operations", "why_tests_cant": "loss or duplication may need a particular batch length relative to the free space after a particular history", "anchors": ["src/skmultiflow/utils/data_structures.py:FastBuffer.add_element", "src/skmultiflow/utils/data_structures.py:FastBuffer.get_next_element"]}
{"id": "C03", "title": "SlidingWindow keeps the last window_size samples with features and targets aligned", "statement": "After any sequence of add_sample calls with single, shape-consistent samples, a SlidingWindow with window_size >= 1 holds exactly the last min(window_size, n) samples in arrival order, the i-th target row belongs to the i-th feature row, and size never exceeds window_size; reset empties it.", "quantifier": "every window_size >= 1, every sample sequence, interleaved with resets", "why_tests_cant": "unbounded histories around the full/not-full boundary", "anchors": ["src/skmultiflow/utils/data_structures.py:SlidingWindow.add_sample", "src/skmultiflow/utils/data_structures.py:SlidingWindow.reset", "src/skmultiflow/utils/data_structures.py:SlidingWindow.size"]}
{"id": "C04", "title": "A rejected SlidingWindow sample leaves the window unchanged", "statement": "If add_sample raises because the sample is inconsistent with the window (number of features or number of targets), the window's features and targets are what they were before the call.", "quantifier": "every window state and every rejected sample", "why_tests_cant": "needs every combination of window fill level and inconsistent shape", "anchors": ["src/skmultiflow/utils/data_structures.py:SlidingWindow.add_sample"]}
{"id": "C05", "title": "utils.ConfusionMatrix counts exactly what was reported", "statement": "With labels inside the matrix, after any sequence of update and remove calls with integer weights, value_at(i,j) equals the sum of the weights of the accepted updates at (i,j) minus those of the accepted removals; get_sum_main_diagonal, row and column sums equal the corresponding sums of cells; growing the matrix changes no existing cell.", "quantifier": "every matrix size, every sequence of updates/removes", "why_tests_cant": "arbitrary interleavings of updates and removals at arbitrary positions and sizes", "anchors": ["src/skmultiflow/utils/data_structures.py:ConfusionMatrix.update", "src/skmultiflow/utils/data_structures.py:ConfusionMatrix.remove", "src/skmultiflow/utils/data_structures.py:ConfusionMatrix.reshape"]}
{"id": "C06", "title": "utils.ConfusionMatrix.update accepts labels beyond the current size", "statement": "update(i,j) with non-negative labels beyond the current matrix extends the matrix and counts the sample (the code's purpose for its else branch); it never fails.", "quantifier": "every current size and every label pair", "why_tests_cant": "the failing label pairs depend on the current size", "anchors": ["src/skmultiflow/utils/data_structures.py:ConfusionMatrix.update"]}
{"id": "C07", "title": "ADWIN window size equals the number of elements its buckets summarise", "statement": "At every moment the reported width equals the sum, over all stored buckets, of the number of stream elements the bucket stands for (2^row each); no row ever holds more than MAX_BUCKETS(5) buckets between calls, every non-last row holds at least MAX_BUCKETS-1, and no array access in the bucket structure is ever out of bounds.", "quantifier": "every stream of values (including NaN/inf), every confidence, every cut decision the statistical test may take, every interleaving of add_element, detected_change, delete_element on a non-empty window and reset", "why_tests_cant": "the compression cascade and the deletion loop reach arbitrarily deep bucket lists; unit tests see only short ones", "anchors": ["src/skmultiflow/drift_detection/adwin.py:ADWIN.add_element", "src/skmultiflow/drift_detection/adwin.py:ADWIN.compress_buckets", "src/skmultiflow/drift_detection/adwin.py:ADWIN.delete_element", "src/skmultiflow/drift_detection/adwin.py:ADWIN.detected_change", "src/skmultiflow/drift_detection/adwin.py:Item", "src/skmultiflow/drift_detection/adwin.py:List"]}
{"id": "C08", "title": "ADWIN total and estimation describe exactly the newest `width` stream elements", "statement": "At every moment the total equals the sum of the last `width` elements added since the last reset, the buckets from newest to oldest partition that suffix of the stream into consecutive blocks each carrying its own block sum, and `estimation` is that suffix's arithmetic mean (0 when empty): drift handling only ever forgets the oldest elements.", "quantifier": "every stream, every confidence, every interleaving of API calls (exact arithmetic)", "why_tests_cant": "requires relating an exponential histogram to the whole unbounded history", "anchors": ["src/skmultiflow/drift_detection/adwin.py:ADWIN.total", "src/skmultiflow/drift_detection/adwin.py:ADWIN.estimation", "src/skmultiflow/drift_detection/adwin.py:ADWIN.width", "src/skmultiflow/drift_detection/adwin.py:ADWIN.delete_element"]}
{"id": "C09", "title": "ADWIN memory is logarithmic in the window", "statement": "The number of stored buckets never exceeds 5*(log2(width+1)+1) between calls.", "quantifier": "every stream, every history of API calls", "why_tests_cant": "asymptotic statement over unbounded windows", "anchors": ["src/skmultiflow/drift_detection/adwin.py:ADWIN.compress_buckets", "src/skmultiflow/drift_detection/adwin.py:List"]}
{"id": "C10", "title": "ADWIN detection reports exactly window shrinkage", "statement": "detected_change() returns True if and only if the call shrank the window; it never grows it, it only ever tests on calls whose ordinal is a multiple of the clock and while the window holds more than the minimum length, it always terminates, it removes only oldest elements, and the detection counter increases by one exactly when it returns True.", "quantifier": "every reachable detector state, every confidence, every outcome of the cut test", "why_tests_cant": "the shrink loop repeats a data dependent, unbounded number of times", "anchors": ["src/skmultiflow/drift_detection/adwin.py:ADWIN.detected_change", "src/skmultiflow/drift_detection/adwin.py:ADWIN.n_detections"]}
{"id": "C100", "title": "AGRAWAL attributes", "statement": "Under any perturbation in (0, 1] every attribute but the house value keeps its documented range. Refuted: the house value collapses to 0 or (9 - zipcode)*100000; the commission is zero for salaries of at least 75k where it is documented to be zero below 75k.", "quantifier": "every seed, history, classification function and perturbation", "why_tests_cant": "All draws.", "anchors": ["src/skmultiflow/data/agrawal_generator.py next_sample", "src/skmultiflow/data/agrawal_generator.py _perturb_value"]}
{"id": "C101", "title": "LED displays", "statement": "A noise-free LED sample shows the seven segments of its label, from which the label can be read off; LEDGeneratorDrift with at most 7 drifting attributes shows them through a permutation of the 24 columns that moves exactly that many segments. Refuted: the column table is a class attribute shared by all instances (building a second generator makes the first raise), and 8 drifting attributes leave a column constantly 0.", "quantifier": "every seed, number of samples and number of drifting attributes", "why_tests_cant": "All seeds and pairs of generators.", "anchors": ["src/skmultiflow/data/led_generator.py", "src/skmultiflow/data/led_generator_drift.py"]}
{"id": "C102", "title": "Rotating hyperplane", "statement": "With n_drift_features <= n_features every next_sample returns; samples lie in the unit cube and are labelled by the hyperplane in force; each sample moves every drifting weight by exactly mag_change and no other weight. Refuted: more drifting features than features are accepted and every sample raises IndexError.", "quantifier": "every seed, history of batches, drift magnitude and direction-change probability", "why_tests_cant": "Unbounded histories of drift.", "anchors": ["src/skmultiflow/data/hyper_plane_generator.py"]}
{"id": "C103", "title": "Waveform mixes two base waves", "statement": "Every Waveform sample of class c is lambda*wave_a + (1-lambda)*wave_b + noise for the two waves of class c and one lambda in [0,1), with 21 points (40 with noise features).", "quantifier": "every random source and number of samples", "why_tests_cant": "All draws.", "anchors": ["src/skmultiflow/data/waveform_generator.py"]}
{"id": "C104", "title": "ConceptDriftStream interleaves its streams", "statement": "The samples of a ConceptDriftStream are an interleaving of what its two streams emit on their own: none lost, repeated or altered; sample i is taken from the drift stream exactly when the i-th random number is at most 1/(1+exp(-4(i-position)/width)); cutting the reading into calls makes no difference.", "quantifier": "any two child streams, random source, position, width, history and batch size", "why_tests_cant": "All child streams, random draws and batch cuttings.", "anchors": ["src/skmultiflow/data/concept_drift_stream.py next_sample"]}
{"id": "C105", "title": "Concept drift schedule", "statement": "For a positive width the probability of the new concept is 1/2 at position, strictly increasing, symmetric about position, strictly between 0 and 1; an angle alpha in (0,90] gives a width of at least 1, and 1 from 45 degrees. Refuted: width 0 is accepted and every sample raises ZeroDivisionError.", "quantifier": "every position, width and index; every angle", "why_tests_cant": "A statement about all indices.", "anchors": ["src/skmultiflow/data/concept_drift_stream.py __init__", "src/skmultiflow/data/concept_drift_stream.py next_sample"]}
{"id": "C106", "title": "ConceptDriftStream bookkeeping", "statement": "restart reproduces the stream when its children do; n_remaining_samples is the number of samples left, -1 if infinite. Refuted: last_sample survives restart; a finite and an infinite child give 99 instead of -1; an exhausted child leaves n_remaining_samples positive while has_more_samples is False; default-built streams share their children.", "quantifier": "any children and histories", "why_tests_cant": "All pairs of child streams.", "anchors": ["src/skmultiflow/data/concept_drift_stream.py n_remaining_samples", "src/skmultiflow/data/concept_drift_stream.py restart"]}
{"id": "C107", "title": "Stored generators deliver their data once and in order", "statement": "RegressionGenerator and MultilabelGenerator read in any batches deliver the generated rows once, in order, with n_remaining_samples and has_more_samples exact, and again after restart. Refuted: past the end a multi-target RegressionGenerator returns targets without features; MultilabelGenerator has more samples for ever; n_remaining_samples goes negative.", "quantifier": "all generated data, numbers of targets and batch lists", "why_tests_cant": "All batch cuttings and sizes.", "anchors": ["src/skmultiflow/data/regression_generator.py", "src/skmultiflow/data/multilabel_generator.py"]}
{"id": "C108", "title": "AnomalySineGenerator", "statement": "Labels are 1 exactly at the drawn anomaly positions (n_anomalies of them without replacement), other samples follow the noisy sine and cosine, and batches deliver the data once and stop at the end. Refuted: n_anomalies = 0 raises; contextual anomalies are not labelled; with the default replace=True fewer than n_anomalies are labelled; has_more_samples stays True when exhausted and next_sample returns None.", "quantifier": "all sizes, draws, noise and batch lists", "why_tests_cant": "All draws and batch cuttings.", "anchors": ["src/skmultiflow/data/anomaly_sine_generator.py"]}
{"id": "C109", "title": "Weighted choice of a centroid", "statement": "random_index_based_on_weights returns index i exactly when the uniform random number lies in the i-th slice of [0,1) cut in proportion to the weights, never one of weight 0. Refuted: no centroids make every RBF sample raise.", "quantifier": "all lists of non-negative weights with positive sum, all random numbers", "why_tests_cant": "A distribution statement over all weights.", "anchors": ["src/skmultiflow/data/pseudo_random_processes.py random_index_based_on_weights"]}
{"id": "C11", "title": "ADWIN variance is the variance of the window", "statement": "`variance` equals the population variance of the last `width` elements.", "quantifier": "every stream and history of API calls (exact arithmetic)", "why_tests_cant": "needs a particular depth of the bucket list before a deletion exposes the error", "anchors": ["src/skmultiflow/drift_detection/adwin.py:ADWIN.variance", "src/skmultiflow/drift_detection/adwin.py:ADWIN.compress_buckets", "src/skmultiflow/drift_detection/adwin.py:ADWIN.delete_element"]}
{"id": "C110", "title": "RandomRBF samples", "statement": "Every sample of a RandomRBFGenerator lies at distance |normal| * std_dev from the centre of one of its centroids and carries that centroid's label, a valid class; the centroids never change.", "quantifier": "every seed, history and number of features, centroids and classes", "why_tests_cant": "All histories and draws.", "anchors": ["src/skmultiflow/data/random_rbf_generator.py"]}
{"id": "C111", "title": "Drifting RBF centroids stay in the unit cube", "statement": "In RandomRBFGeneratorDrift all centres stay in [0,1]^d forever, each drifting centre moves by at most change_speed per sample, labels, deviations and weights never change, and the centroids after the first num_drift_centroids never move.", "quantifier": "every seed, speed and history of batches", "why_tests_cant": "Unbounded histories.", "anchors": ["src/skmultiflow/data/random_rbf_generator_drift.py"]}
{"id": "C112", "title": "RandomTree concept", "statement": "RandomTreeGenerator builds a tree whose leaves lie between min_leaf_depth and max_tree_depth, whose numeric cuts lie in the reachable interval and whose paths never test a nominal attribute twice; every sample is a valid row, gets a class, and equal features get equal labels; next_sample always returns. Refuted: with no numeric features and fewer categorical features than the depth the constructor raises for every seed.", "quantifier": "every seed, parameter setting and history", "why_tests_cant": "All trees and samples.", "anchors": ["src/skmultiflow/data/random_tree_generator.py"]}
{"id": "C113", "title": "KNNClassifier votes with the k nearest samples of the window", "statement": "After any history of partial_fit, predict and reset calls, predict_proba gives for every row and label the share of the row's n_neighbors nearest samples, among the last max_window_size samples since the reset, that carry the label, and predict the smallest of the labels carried most; with fewer than n_neighbors samples the answer is 0. No call raises.", "quantifier": "all window sizes, n_neighbors, histories, batches, non-negative labels and nearest-neighbour searches", "why_tests_cant": "window contents depend on the whole history of calls and resets; tests use one stream and one seed", "anchors": ["src/skmultiflow/lazy/knn_classifier.py:KNNClassifier", "src/skmultiflow/lazy/base_neighbors.py"]}
{"id": "C114", "title": "KNNRegressor predicts the mean or median of the k nearest targets", "statement": "For every row of the batch, predict returns the mean (or median) of the targets of that row's n_neighbors nearest samples in the window, and 0 before n_neighbors samples were seen.", "quantifier": "all histories, batches, n_neighbors, window sizes, aggregation methods", "why_tests_cant": "the existing test predicts one row at a time on one stream", "anchors": ["src/skmultiflow/lazy/knn_regressor.py:KNNRegressor"]}
{"id": "C115", "title": "KNNADWINClassifier keeps exactly the samples its detector has kept", "statement": "After any history of partial_fit, predict and reset, the stored window is the last min(max_window_size, detector width) samples since the reset and no call raises.", "quantifier": "all histories, window sizes, n_neighbors, deltas and detectors whose window shrinks only in detected_change", "why_tests_cant": "the two windows are kept in step by separate code paths, over arbitrary histories of changes", "anchors": ["src/skmultiflow/lazy/knn_adwin.py:KNNADWINClassifier", "src/skmultiflow/drift_detection/adwin.py:ADWIN"]}
{"id": "C116", "title": "reset gives a nearest neighbour classifier as new", "statement": "After reset, predict and predict_proba behave as those of a newly built learner given the same calls.", "quantifier": "all histories before and after the reset", "why_tests_cant": "ranges over pairs of histories", "anchors": ["src/skmultiflow/lazy/base_neighbors.py:reset", "src/skmultiflow/lazy/knn_classifier.py:predict_proba"]}
{"id": "C117", "title": "A nearest neighbour classifier can eventually use its window", "statement": "Once enough samples were given, predictions depend on the samples, for every accepted pair of n_neighbors and max_window_size.", "quantifier": "all parameter pairs, histories and batches", "why_tests_cant": "the failure holds for all histories of some parameter pairs only", "anchors": ["src/skmultiflow/lazy/knn_classifier.py:KNNClassifier"]}
{"id": "C118", "title": "Naive Bayes answers with the posterior of Bayes' rule", "statement": "After any sequence of NaiveBayes.partial_fit calls with non-negative weights, each row of predict_proba holds, for every label, prior x product over the columns of the normal density (numeric) or Laplace estimate (nominal) of the value among the samples of the label, normalised to sum to 1 (all zero if every score is 0); zero-weight samples count for nothing, and predict returns the first label of greatest posterior.", "quantifier": "all histories of batches, weights, nominal attribute sets, classes lists covering the labels, and query matrices", "why_tests_cant": "the posterior depends on the whole weighted history through per-class running statistics in dictionaries created on demand", "anchors": ["src/skmultiflow/bayes/naive_bayes.py:NaiveBayes", "src/skmultiflow/bayes/utils.py:do_naive_bayes_prediction"]}
{"id": "C119", "title": "Naive Bayes accepts the documented array arguments", "statement": "classes (documented as numpy.ndarray) may be passed to every call of NaiveBayes.partial_fit, and nominal_attributes may be an array, without changing the outcome.", "quantifier": "all states, batches and later calls", "why_tests_cant": "failure depends on the call history: only the call after the one that stored the array raises", "anchors": ["src/skmultiflow/bayes/naive_bayes.py:NaiveBayes.partial_fit", "src/skmultiflow/bayes/naive_bayes.py:NaiveBayes.__init__"]}
{"id": "C12", "title": "ADWIN considers every bucket boundary as a cut point", "statement": "A call that tests for drift compares, for every boundary between two adjacent stored buckets, the elements older than the boundary with the elements newer than it.", "quantifier": "every reachable bucket list", "why_tests_cant": "depends on the shape of the bucket list, which varies with the whole history", "anchors": ["src/skmultiflow/drift_detection/adwin.py:ADWIN.detected_change"]}
{"id": "C120", "title": "Naive Bayes predicts even after a label outside classes was learned", "statement": "predict and predict_proba answer after partial_fit accepted a sample whose label is not among the given classes.", "quantifier": "all histories and query matrices", "why_tests_cant": "needs every order of batches and class declarations", "anchors": ["src/skmultiflow/bayes/naive_bayes.py:NaiveBayes.predict_proba"]}
{"id": "C121", "title": "Tree measurements are those of the tree", "statement": "After any sequence of HoeffdingTreeClassifier.partial_fit and reset calls the decision node, active leaf and inactive leaf counts of model_measurements are the numbers of such nodes in the tree, their sum is the number of nodes, and the reported depth is the longest chain of split nodes.", "quantifier": "every configuration, leaf type, criterion, sequence of calls, sample and weight; any number type", "why_tests_cant": "The counters are kept by hand through splitting, pruning, memory management and new branches.", "anchors": ["src/skmultiflow/trees/hoeffding_tree.py model_measurements, _attempt_to_split, _enforce_tracker_limit, _activate_learning_node, _deactivate_learning_node"]}
{"id": "C122", "title": "A training sample changes the tree only where it arrives", "statement": "After partial_fit of one sample every instance that reaches another node keeps its path and the node there keeps its class statistics; without memory pressure an active leaf elsewhere is unchanged. With leaf_prediction='mc' the votes of instances that go elsewhere never change, memory management included. A path once built is never revised, it can only become longer.", "quantifier": "every reachable tree, sample, weight and pair of instances", "why_tests_cant": "All trees and pairs of instances.", "anchors": ["src/skmultiflow/trees/hoeffding_tree.py _partial_fit, _attempt_to_split, _enforce_tracker_limit", "src/skmultiflow/trees/_nodes/base.py filter_instance_to_leaf, set_child"]}
{"id": "C123", "title": "A training sample is counted at the leaf it reaches", "statement": "After partial_fit of one sample of non-zero weight that reaches a leaf, the node at that place (kept, split, or switched off) has the statistics of the old leaf with the weight added to the sample's label and no other label changed.", "quantifier": "every reachable tree, sample, label and non-zero weight", "why_tests_cant": "All histories, including those that split or deactivate at that very sample.", "anchors": ["src/skmultiflow/trees/hoeffding_tree.py _partial_fit", "src/skmultiflow/trees/_nodes/htc_nodes.py update_stats"]}
{"id": "C124", "title": "The tree only grows between resets", "statement": "A partial_fit call never removes a split node, makes at most one split per sample, and makes none once growth has stopped.", "quantifier": "every reachable tree and call", "why_tests_cant": "All histories.", "anchors": ["src/skmultiflow/trees/hoeffding_tree.py partial_fit, _attempt_to_split"]}
{"id": "C125", "title": "The memory limit keeps the most promising leaves active", "statement": "After a sample that makes a split, the number of active leaves is the greatest whose estimated size, and that of every smaller number, fits max_byte_size, and no inactive leaf has more promise (weight not of its majority label) than an active leaf.", "quantifier": "every reachable tree, sample and ordered number type; stop_mem_management=False, no size estimate due at that sample", "why_tests_cant": "All trees, sizes and limits.", "anchors": ["src/skmultiflow/trees/hoeffding_tree.py _enforce_tracker_limit, _sort_learning_nodes", "src/skmultiflow/trees/_nodes/base.py calculate_promise"]}
{"id": "C126", "title": "stop_mem_management stops the growth when the memory limit is hit", "statement": "REFUTED: one pre-pruned leaf (a leaf without candidate splits) stops the growth of the whole tree for good although the memory limit is far away; and when the limit is hit growth goes on, because the check counts one active leaf instead of all of them.", "quantifier": "a witness run and every call after it", "why_tests_cant": "That no later call ever splits again is a statement about all continuations.", "anchors": ["src/skmultiflow/trees/hoeffding_tree.py _enforce_tracker_limit 638-648"]}
{"id": "C127", "title": "A Hoeffding tree leaf splits exactly when the Hoeffding test passes", "statement": "When a HoeffdingTreeClassifier learns a sample, the leaf it reaches becomes a decision node exactly when growth is allowed, at least grace_period of weight arrived since the last attempt (or the creation of the leaf), at least two labels were seen there, and the best split suggestion is a test whose merit exceeds every other suggestion (the null split included) by more than sqrt(R^2 ln(1/split_confidence)/(2n)), or that bound is below tie_threshold. The new decision node keeps the leaf's statistics and gets one leaf per branch with the distribution of that branch.", "quantifier": "every configuration, every history of partial_fit and reset calls, every sample and weight", "why_tests_cant": "an equivalence over all histories and configurations; tests run a few streams and compare predictions", "anchors": ["src/skmultiflow/trees/hoeffding_tree.py: HoeffdingTreeClassifier._attempt_to_split, _partial_fit, _hoeffding_bound", "src/skmultiflow/trees/_nodes/base.py: ActiveLeaf.get_best_split_suggestions"]}
{"id": "C128", "title": "remove_poor_atts lets the tree split", "statement": "Setting remove_poor_atts=True only disables attributes; the tree still splits when the evidence suffices.", "quantifier": "every stream with remove_poor_atts=True and the default no_preprune=False", "why_tests_cant": "the failure is that no stream at all leads to a split", "anchors": ["src/skmultiflow/trees/hoeffding_tree.py: _attempt_to_split 598-610"]}
{"id": "C129", "title": "A pre-pruned leaf is deactivated", "statement": "With no_preprune=False, a leaf for which the null split wins is deactivated and stays inactive.", "quantifier": "every stream and configuration whose memory limit does not bind", "why_tests_cant": "the same call deactivates and re-activates the leaf; nothing is visible afterwards", "anchors": ["src/skmultiflow/trees/hoeffding_tree.py: _attempt_to_split 611-631, _enforce_tracker_limit 638-667"]}
{"id": "C13", "title": "ADWIN.get_change reports whether the last call detected drift", "statement": "get_change() returns True when drift was detected by the preceding detected_change().", "quantifier": "every history of API calls", "why_tests_cant": "absence of a behaviour for all histories cannot be shown by tests", "anchors": ["src/skmultiflow/drift_detection/adwin.py:ADWIN.get_change", "src/skmultiflow/drift_detection/adwin.py:ADWIN.detected_change"]}
{"id": "C130", "title": "A split separates samples", "statement": "With default settings a leaf is only split by a test that can send samples to at least two branches.", "quantifier": "every stream", "why_tests_cant": "needs thousands of units of weight on a constant nominal attribute", "anchors": ["src/skmultiflow/trees/hoeffding_tree.py: _attempt_to_split", "src/skmultiflow/trees/_split_criterion/info_gain_split_criterion.py"]}
{"id": "C131", "title": "reset() forgets the classes of a Hoeffding tree", "statement": "After reset() a HoeffdingTreeClassifier behaves like a new one; in particular the classes argument of the next partial_fit is taken.", "quantifier": "every history before and after reset", "why_tests_cant": "the stale attribute only shows with a second stream that has other labels", "anchors": ["src/skmultiflow/trees/hoeffding_tree.py: reset 235-247, partial_fit 287-301, predict_proba 400-437"]}
{"id": "C132", "title": "Dynamic Weighted Majority keeps between 1 and n_estimators experts with weights in (0,1]", "statement": "After any successful sequence of partial_fit, predict and reset calls, a DynamicWeightedMajorityClassifier with n_estimators >= 1, beta > 0 and theta <= 1 has between 1 and n_estimators experts; every weight is greater than 0, at most 1 and at least theta, and some expert has weight 1.", "quantifier": "every base estimator that predicts nonnegative labels, every parameters in range, every sequence of calls", "why_tests_cant": "The bound and the normalisation must hold after any history of errors, removals and additions.", "anchors": ["src/skmultiflow/meta/dynamic_weighted_majority.py: DynamicWeightedMajorityClassifier"]}
{"id": "C133", "title": "Each sample given to Dynamic Weighted Majority is one round of the published algorithm", "statement": "At every reachable state, partial_fit with one sample: every expert predicts it; at multiples of the period the wrong experts' weights are multiplied by beta; the ensemble's answer is the label with the greatest weight (smallest label on ties); at multiples of the period weights are divided by the greatest, experts under theta are removed, and if the ensemble was wrong a new expert of weight 1 is added, in place of one of least weight when there are already n_estimators; then each expert learns the sample.", "quantifier": "every base estimator, parameters, reachable state and sample", "why_tests_cant": "The bookkeeping (index of the weakest found before the removal, weights rescaled in between) must be right for every configuration of weights.", "anchors": ["src/skmultiflow/meta/dynamic_weighted_majority.py: fit_single_sample"]}
{"id": "C134", "title": "Dynamic Weighted Majority never fails on valid input", "statement": "With n_estimators >= 1, period != 0, 0 < beta < 1, theta <= 1 and a base estimator that does not fail, no sequence of partial_fit (nonnegative labels, no sample weights), predict and reset calls raises; NaiveBayes is such an estimator. With beta = 1 a wrong answer of a full ensemble raises TypeError.", "quantifier": "every base estimator meeting the stated contract, every sequence of calls", "why_tests_cant": "Failure-freedom over all histories.", "anchors": ["src/skmultiflow/meta/dynamic_weighted_majority.py: fit_single_sample, predict"]}
{"id": "C135", "title": "Expert ensembles predict the label their experts vote for", "statement": "predict of DynamicWeightedMajorityClassifier (and AdditiveExpertEnsembleClassifier) returns the class with the greatest total weight of experts. What holds: it is the weighted mean of the predicted label numbers rounded to the nearest integer, which is the vote for labels 0/1 and for unanimous experts, but not in general.", "quantifier": "every reachable state and every batch", "why_tests_cant": "Depends on the label values and weights of every ensemble.", "anchors": ["src/skmultiflow/meta/dynamic_weighted_majority.py: predict", "src/skmultiflow/meta/additive_expert_ensemble.py: predict"]}
{"id": "C136", "title": "Sample weights work with batches in the expert ensembles", "statement": "partial_fit of DynamicWeightedMajorityClassifier with a batch of rows and one weight per row trains each expert with each row and its weight.", "quantifier": "every reachable state, every batch of at least two rows", "why_tests_cant": "Quantifies over all states and batches.", "anchors": ["src/skmultiflow/meta/dynamic_weighted_majority.py: partial_fit"]}
{"id": "C137", "title": "Additive Expert Ensemble: number of experts and normalised weights", "statement": "After any successful sequence of calls an AdditiveExpertEnsembleClassifier has between 1 and n_estimators experts with positive weights, which sum to 1 unless the number of learned samples is a multiple of 1000; with a base estimator that does not fail no call fails.", "quantifier": "every base estimator, parameters, pruning mode and sequence of calls", "why_tests_cant": "Invariant over all histories.", "anchors": ["src/skmultiflow/meta/additive_expert_ensemble.py: AdditiveExpertEnsembleClassifier"]}
{"id": "C138", "title": "pruning='oldest' keeps the youngest experts", "statement": "With pruning='oldest' each sample: experts vote, wrong experts lose the factor beta, after a wrong ensemble answer a new expert with weight gamma times the total weight is appended, the last n_estimators experts remain, learn the sample and are normalised.", "quantifier": "every base estimator, reachable state and sample", "why_tests_cant": "All histories.", "anchors": ["src/skmultiflow/meta/additive_expert_ensemble.py: fit_single_sample, _add_expert"]}
{"id": "C139", "title": "pruning='weakest' removes the weakest expert", "statement": "With pruning='weakest', when a full ensemble answers wrongly and a new expert is made, the expert of least weight is removed.", "quantifier": "every base estimator, reachable full state and sample", "why_tests_cant": "All weight configurations.", "anchors": ["src/skmultiflow/meta/additive_expert_ensemble.py: fit_single_sample, _add_expert"]}
{"id": "C14", "title": "ADWIN reset returns to the freshly constructed state", "statement": "After reset() an ADWIN behaves on every later call sequence exactly like a newly constructed ADWIN with the same delta.", "quantifier": "every state and every later call sequence", "why_tests_cant": "all future behaviours after all histories", "anchors": ["src/skmultiflow/drift_detection/adwin.py:ADWIN.reset", "src/skmultiflow/drift_detection/adwin.py:ADWIN.reset_change"]}
{"id": "C140", "title": "A Hoeffding tree leaf predicts by its leaf_prediction strategy", "statement": "As long as less than grace_period of weight has come since the last reset, partial_fit with weights that are not negative never raises, and the votes of HoeffdingTreeClassifier are: 'mc' the weight of each label seen; 'nb' these weights below nb_threshold of total weight and the Naive Bayes scores from there on; 'nba' the label weights if, over the samples so far, the majority class (asked before learning each sample) was right on more weight than Naive Bayes, and the Naive Bayes scores otherwise.", "quantifier": "all sequences of partial_fit and reset calls, batches, weights (zero included), labels, nominal attributes, query instances", "why_tests_cant": "The adaptive choice depends on the whole history of right and wrong guesses; tests check final accuracies of a few streams.", "anchors": ["src/skmultiflow/trees/_nodes/htc_nodes.py: ActiveLearningNodeMC, ActiveLearningNodeNB, ActiveLearningNodeNBA", "src/skmultiflow/trees/hoeffding_tree.py: HoeffdingTreeClassifier._get_votes_for_instance"]}
{"id": "C141", "title": "predict_proba of a Hoeffding tree gives the shares of the votes", "statement": "Each row of HoeffdingTreeClassifier.predict_proba holds, at the place of every label with a vote, the share of the label in the sum of the votes (the vote itself if they sum to zero) and zero elsewhere; without a classes argument all rows have the same length, filled with zeros on the right.", "quantifier": "all trees whose votes have different labels that are not negative, all batches of instances", "why_tests_cant": "Rows of different natural lengths only appear when leaves have seen different labels.", "anchors": ["src/skmultiflow/trees/hoeffding_tree.py: HoeffdingTreeClassifier.predict_proba"]}
{"id": "C142", "title": "An instance follows the branches its tests ask for", "statement": "At every split node an instance passes in a Hoeffding tree, it takes branch 0 of a numeric test exactly if its value is at most the threshold (else 1), branch 0 of a binary nominal test exactly if its value is the tested one (else 1), and in a multiway test the branch registered for its value.", "quantifier": "all reachable trees, all instances, every node of the path", "why_tests_cant": "Swapped or off-by-equality branches only show on values equal to thresholds in deep nodes.", "anchors": ["src/skmultiflow/trees/_attribute_test/numeric_attribute_binary_test.py", "src/skmultiflow/trees/_attribute_test/nominal_attribute_binary_test.py", "src/skmultiflow/trees/_attribute_test/nominal_attribute_multiway_test.py", "src/skmultiflow/trees/_nodes/base.py: SplitNode.filter_instance_to_leaf"]}
{"id": "C143", "title": "The size estimate enforces the memory limit exactly when the tree is too large", "statement": "When a size estimate is due after a sample (memory_estimate_period), the tree is measured; if the measure is above max_byte_size (stop_mem_management=False) the active leaves are as many as fit by the new estimates and no inactive leaf has a greater promise than an active one; otherwise no leaf is activated or deactivated.  The overhead fraction becomes measured size / estimated size.", "quantifier": "all reachable trees, samples, size functions, limits", "why_tests_cant": "Sizes depend on the platform; the interplay of estimates and limits needs long runs.", "anchors": ["src/skmultiflow/trees/hoeffding_tree.py: HoeffdingTreeClassifier._estimate_model_byte_size, _enforce_tracker_limit"]}
{"id": "C144", "title": "Oza bagging: the classes contract and the size of the ensemble", "statement": "The first partial_fit of OzaBaggingClassifier must name the classes; a later call may name the same set of labels (order and repetitions do not matter) or none. Any other call raises ValueError whatever its samples. After a successful partial_fit the ensemble has max(n_estimators, number of classes) members.", "quantifier": "every base estimator, random source, reachable state (any sequence of partial_fit, predict, predict_proba, reset) and call", "why_tests_cant": "The contract depends on the whole history of calls and on sets of labels of any size.", "anchors": ["src/skmultiflow/meta/oza_bagging.py: OzaBaggingClassifier.partial_fit, __adjust_ensemble_size"]}
{"id": "C145", "title": "Oza bagging: online bootstrap", "statement": "A partial_fit of OzaBaggingClassifier on a batch trains every member on the rows in order, each row repeated as often as the Poisson(1) number drawn for this member and this row; the members draw in turn for each row.", "quantifier": "every base estimator, random source, state, batch, classes and weights", "why_tests_cant": "Tests see one seed and one learner; the order of draws and trainings for every batch cannot be enumerated.", "anchors": ["src/skmultiflow/meta/oza_bagging.py: OzaBaggingClassifier.partial_fit"]}
{"id": "C146", "title": "Oza bagging: probabilities and labels", "statement": "predict_proba of OzaBaggingClassifier gives each label its share in the sum of the answers of all members (rows of positive sum add up to 1); predict gives the first label of greatest probability. If one member raises ValueError or TypeError the answers of all others are dropped and every label is 0.", "quantifier": "every base estimator with real probabilities, state, batch", "why_tests_cant": "Ranges over all ensembles and all answers of members.", "anchors": ["src/skmultiflow/meta/oza_bagging.py: predict, predict_proba"]}
{"id": "C147", "title": "Bagging: reset gives a new ensemble", "statement": "After reset a bagging ensemble behaves like a newly constructed one. Refuted: OzaBagging keeps the classes, OzaBaggingADWIN keeps its trained estimators and the classes.", "quantifier": "every base estimator, state and later call", "why_tests_cant": "Needs all histories before the reset and all calls after it.", "anchors": ["src/skmultiflow/meta/oza_bagging.py: reset", "src/skmultiflow/meta/oza_bagging_adwin.py: reset"]}
{"id": "C148", "title": "Oza bagging with ADWIN: the worst member is reset", "statement": "When a change is detected OzaBaggingADWINClassifier resets its worst performing member. Refuted: the detectors are fed 1 for a right prediction, and the member of greatest estimate is reset.", "quantifier": "every base estimator, detector, random source, state and batch", "why_tests_cant": "Which member is reset depends on the estimates of all members in every state.", "anchors": ["src/skmultiflow/meta/oza_bagging_adwin.py: partial_fit"]}
{"id": "C149", "title": "Leveraging bagging: the worst member is replaced", "statement": "For each sample LeveragingBaggingClassifier feeds each detector 1 for a wrong and 0 for a right prediction; if no detector announces a change with a greater estimate nothing is reset; otherwise n_detected_changes grows by one and exactly one member, one of greatest error estimate, is reset with a new detector.", "quantifier": "every base estimator, detector, algorithm, random source, state and sample", "why_tests_cant": "Ranges over all ensembles and detector states.", "anchors": ["src/skmultiflow/meta/leverage_bagging.py: __partial_fit"]}
{"id": "C15", "title": "DDM tracks the exact error rate since its last reset", "statement": "After k>=1 elements since the last reset the internal estimate equals the arithmetic mean of those k elements, hence lies in [0,1] for 0/1 inputs, and the estimated standard deviation is that of a Bernoulli mean over k elements; no call raises for 0/1 inputs.", "quantifier": "every 0/1 stream and every parameter setting (exact arithmetic)", "why_tests_cant": "incremental mean over unbounded histories with resets", "anchors": ["src/skmultiflow/drift_detection/ddm.py:DDM.add_element", "src/skmultiflow/drift_detection/ddm.py:DDM.reset"]}
{"id": "C150", "title": "Leveraging bagging: how often a member learns", "statement": "The number of times a member learns a sample follows the leverage algorithm: Poisson(w); one if the member is wrong, else one with probability error/(1-error); a coin; 1 + Poisson(1); at most one. With output codes it learns the code of the label.", "quantifier": "every algorithm, base estimator, random source, member and sample", "why_tests_cant": "Random numbers and member states are unbounded.", "anchors": ["src/skmultiflow/meta/leverage_bagging.py: __partial_fit"]}
{"id": "C151", "title": "Leveraging bagging: output codes", "statement": "The matrix of output codes has one balanced row per member, and partial_fit returns. Refuted in part: with an odd number of classes and an even number of estimators no row is balanced and partial_fit never returns, whatever the random numbers; for two classes the first try is accepted.", "quantifier": "every random source, number of classes and number of estimators", "why_tests_cant": "Non-termination for every random stream is not observable by a test.", "anchors": ["src/skmultiflow/meta/leverage_bagging.py: __init_output_codes"]}
{"id": "C152", "title": "Online imbalanced-stream ensembles: classes contract and size", "statement": "For the six online boosting/bagging classifiers, the first partial_fit must name the classes, later ones may name only the same set; otherwise ValueError. After a partial_fit the ensemble has max(n_estimators, number of classes) members, each with its own statistics.", "quantifier": "every base estimator, change detector, random source, sequence of calls", "why_tests_cant": "must hold after every sequence of fit, predict and reset", "anchors": ["src/skmultiflow/meta/online_boosting.py:OnlineBoostingClassifier.partial_fit", "src/skmultiflow/meta/online_adac2.py", "src/skmultiflow/meta/online_csb2.py", "src/skmultiflow/meta/online_rus_boost.py", "src/skmultiflow/meta/online_under_over_bagging.py", "src/skmultiflow/meta/online_smote_bagging.py"]}
{"id": "C153", "title": "Online ensembles: reset gives a new object", "statement": "After reset an online ensemble behaves as a new one; in particular it accepts the classes of another problem.", "quantifier": "every state with known classes, every other set of classes", "why_tests_cant": "quantifies over all states and class sets", "anchors": ["src/skmultiflow/meta/online_boosting.py:reset"]}
{"id": "C154", "title": "Online boosting: error shares and rates", "statement": "At every sample the members are visited in order, the first with rate 1; a member learns the sample K ~ Poisson(rate) times; its error share is the sum of rates of wrong samples over all; the rate is multiplied by total/(2 right) after a right answer and by total/(2 wrong) after a wrong one. Rates stay positive.", "quantifier": "every reachable state, also between rows, every sample, random source and base estimator", "why_tests_cant": "invariant over unbounded streams", "anchors": ["src/skmultiflow/meta/online_boosting.py:OnlineBoostingClassifier.partial_fit"]}
{"id": "C155", "title": "Boosted votes: better members have a greater say", "statement": "predict_proba is the normalised sum of the members' probabilities weighted by log((1-eps)/eps), predict its first maximum, and a better member has a greater weight.", "quantifier": "every reachable state and batch, members' answers of one width", "why_tests_cant": "must hold for every state", "anchors": ["src/skmultiflow/meta/online_boosting.py:predict_proba"]}
{"id": "C156", "title": "AdaC2: costs, weighted accuracy and rates", "statement": "For labels 0 and 1 the costs of true/false positives/negatives are added up per member with the cost of the class, weighted accuracy and error are their shares in the sum of rates, and the rate is cost*rate over twice the share of answers of this kind; votes are weighted by log(accuracy/error).", "quantifier": "every reachable state, positive costs, every sample", "why_tests_cant": "invariant over unbounded streams", "anchors": ["src/skmultiflow/meta/online_adac2.py:OnlineAdaC2Classifier.partial_fit"]}
{"id": "C157", "title": "AdaC2 works with more classes than estimators", "statement": "partial_fit works when the number of classes is greater than n_estimators, as the ensemble is enlarged.", "quantifier": "every reachable state, samples with labels 0 and 1", "why_tests_cant": "quantifies over all states and random sources", "anchors": ["src/skmultiflow/meta/online_adac2.py:__adjust_ensemble_size"]}
{"id": "C158", "title": "CSB2 treats right answers like AdaBoost and costs each error with its own cost", "statement": "After a right answer the rate changes as in online boosting; the weighted error of a member is the cost-weighted share of its errors, with cost_positive for missed positives and cost_negative for false alarms.", "quantifier": "every reachable state, positive costs, every sample", "why_tests_cant": "invariant over unbounded streams", "anchors": ["src/skmultiflow/meta/online_csb2.py:OnlineCSB2Classifier.partial_fit"]}
{"id": "C159", "title": "RUSBoost: sampling rates", "statement": "The rate with which a member draws a sample is that of the chosen algorithm, from the counts of positive and negative samples and the member's sums of rates; it is never negative; error share and rate are updated at every sample.", "quantifier": "every reachable state, positive sampling rate, every sample", "why_tests_cant": "invariant over unbounded streams", "anchors": ["src/skmultiflow/meta/online_rus_boost.py:OnlineRUSBoostClassifier.partial_fit"]}
{"id": "C16", "title": "DDM never alarms before the minimum number of instances", "statement": "With warning_level and out_control_level >= 1, neither a warning nor a change is reported for any of the first min_num_instances - 1 elements after construction, reset or a detected change.", "quantifier": "every stream, every min_num_instances, every warning_level and out_control_level >= 1 (exact arithmetic)", "why_tests_cant": "a false alarm would need a specific prefix among exponentially many", "anchors": ["src/skmultiflow/drift_detection/ddm.py:DDM.add_element"]}
{"id": "C160", "title": "Under/over bagging: rates and votes", "statement": "Member i of m learns a sample Poisson((i+1)/m) times, times the sampling rate for label 1; all votes have the same weight.", "quantifier": "every state, sample, random source and base estimator", "why_tests_cant": "quantifies over all states", "anchors": ["src/skmultiflow/meta/online_under_over_bagging.py:partial_fit"]}
{"id": "C161", "title": "SMOTE bagging: synthetic samples", "statement": "A synthetic sample lies between the current positive sample and one of its five nearest positive neighbours; each positive sample is stored once.", "quantifier": "every state, sample and random source", "why_tests_cant": "quantifies over all states and draws", "anchors": ["src/skmultiflow/meta/online_smote_bagging.py:online_smote"]}
{"id": "C162", "title": "Online ensembles: the worst member is reset at a drift", "statement": "When a change is detected the classifier with the worst accuracy is reset.", "quantifier": "every state, batch, detector and estimator", "why_tests_cant": "quantifies over all states", "anchors": ["src/skmultiflow/meta/online_boosting.py:partial_fit"]}
{"id": "C163", "title": "Online ensembles: one mark per sample for each ADWIN", "statement": "Each sample of a batch gives each member's ADWIN one mark.", "quantifier": "every reachable state, every batch, every counting detector that announces no change", "why_tests_cant": "quantifies over all batches", "anchors": ["src/skmultiflow/meta/online_boosting.py:partial_fit"]}
{"id": "C164", "title": "Online ensembles do not fail", "statement": "With an estimator and a detector that do not fail, no sequence of calls of partial_fit fails (no negative or undefined Poisson rate).", "quantifier": "every sequence of batches, positive costs and sampling rate; AdaC2 with at most n_estimators classes", "why_tests_cant": "quantifies over all streams and random sources", "anchors": ["src/skmultiflow/meta/online_boosting.py", "src/skmultiflow/meta/online_csb2.py", "src/skmultiflow/meta/online_rus_boost.py", "src/skmultiflow/meta/online_under_over_bagging.py", "src/skmultiflow/meta/online_adac2.py"]}
{"id": "C165", "title": "Each output of a multi-output learner is learnt and predicted by its own estimator", "statement": "MultiOutputLearner trains, for each output, a copy of the base estimator exactly as that estimator would be trained alone on this output; column j of predict is what that estimator predicts; so what is predicted for one output never depends on the values of the others; nothing fails if the base estimator does not.", "quantifier": "every base estimator, number of outputs, history of fit, partial_fit and reset calls, classes, weights and instances", "why_tests_cant": "Needs every history and every base estimator: a test shows one run of one estimator.", "anchors": ["src/skmultiflow/meta/multi_output_learner.py:MultiOutputLearner"]}
{"id": "C166", "title": "predict_proba of a multi-output learner gives the probability of each label of each output", "statement": "predict_proba stores, for each sample and each classification task, the probability of each of the labels.", "quantifier": "every base estimator, history and instance", "why_tests_cant": "Depends on the number of labels every estimator knows.", "anchors": ["src/skmultiflow/meta/multi_output_learner.py:MultiOutputLearner.predict_proba"]}
{"id": "C167", "title": "A multi-output learner can train any base estimator", "statement": "partial_fit works with any base estimator that has fit, partial_fit and predict, whatever optional parameters their signatures have.", "quantifier": "every base estimator and every sequence of calls", "why_tests_cant": "Quantifies over signatures of estimators outside the library.", "anchors": ["src/skmultiflow/meta/multi_output_learner.py:MultiOutputLearner.partial_fit"]}
{"id": "C168", "title": "Chains train member j on the instance followed by the earlier targets", "statement": "In a ClassifierChain or RegressorChain with any order, the member at position j learns target order[j] from the instances followed by the true values of the targets before it in the chain, with one call of the base estimator per call of the chain since the last fit or reset; nothing fails if the base estimator does not.", "quantifier": "every base estimator, order, number of targets and history", "why_tests_cant": "Needs every history, order and base estimator.", "anchors": ["src/skmultiflow/meta/classifier_chains.py:ClassifierChain", "src/skmultiflow/meta/regressor_chains.py:RegressorChain"]}
{"id": "C169", "title": "Chain predictions come in the order of the targets", "statement": "For every order of the chain, column order[j] of predict is what member j predicts for the instances followed by the predictions of the targets before it in the chain.", "quantifier": "every permutation, base estimator, history and instances", "why_tests_cant": "Needs every permutation of the targets.", "anchors": ["src/skmultiflow/meta/classifier_chains.py:ClassifierChain.predict", "src/skmultiflow/meta/regressor_chains.py:RegressorChain.predict"]}
{"id": "C17", "title": "DDM flags are exclusive and a change restarts the detector", "statement": "No call leaves both the warning and the change flag set, and the element after a detected change is processed exactly as the first element of a fresh detector with the same parameters.", "quantifier": "every stream and every history", "why_tests_cant": "all histories up to and after every drift", "anchors": ["src/skmultiflow/drift_detection/ddm.py:DDM.add_element", "src/skmultiflow/drift_detection/ddm.py:DDM.reset"]}
{"id": "C170", "title": "Chain probabilities come in the order of the targets", "statement": "Column i of predict_proba of a ClassifierChain is about target i, for every order of the chain.", "quantifier": "every permutation, base estimator, history and instances", "why_tests_cant": "Needs every permutation of the targets.", "anchors": ["src/skmultiflow/meta/classifier_chains.py:ClassifierChain.predict_proba"]}
{"id": "C171", "title": "The probabilistic classifier chain predicts the most probable labels", "statement": "predict of ProbabilisticClassifierChain returns, for each instance, a label vector whose joint probability under the chain is at least that of every other label vector.", "quantifier": "every base estimator giving two probabilities, every number of labels, history, order and instance", "why_tests_cant": "2^L label vectors for every L and every estimator.", "anchors": ["src/skmultiflow/meta/classifier_chains.py:ProbabilisticClassifierChain.predict", "src/skmultiflow/meta/classifier_chains.py:P"]}
{"id": "C172", "title": "The Monte Carlo chain answers with the best of its candidates", "statement": "predict of MonteCarloClassifierChain returns the most probable among the prediction of the plain chain and the M label vectors it drew.", "quantifier": "every base estimator, random source, M, history and instance", "why_tests_cant": "Quantifies over all random draws.", "anchors": ["src/skmultiflow/meta/classifier_chains.py:MonteCarloClassifierChain.predict"]}
{"id": "C173", "title": "A rejected call leaves a multi-output model usable", "statement": "If partial_fit raises because y has a wrong number of columns, the model predicts as before.", "quantifier": "every history followed by a wrong call", "why_tests_cant": "Crash points: every call that raises.", "anchors": ["src/skmultiflow/meta/multi_output_learner.py:MultiOutputLearner.partial_fit", "src/skmultiflow/meta/classifier_chains.py:ClassifierChain.partial_fit", "src/skmultiflow/meta/regressor_chains.py:RegressorChain.partial_fit"]}
{"id": "C174", "title": "reset makes a chain behave like a new one", "statement": "After reset, and with an integer random_state, every later call of a chain returns or raises what it would on a new chain.", "quantifier": "every state and every later history", "why_tests_cant": "Every earlier and later history.", "anchors": ["src/skmultiflow/meta/classifier_chains.py:ClassifierChain.reset", "src/skmultiflow/meta/regressor_chains.py:RegressorChain.reset"]}
{"id": "C175", "title": "Batch-incremental members are trained on the last full windows", "statement": "After any sequence of unweighted partial_fit and reset calls on BatchIncrementalClassifier that raised nothing, the rows given since the last reset are cut, in order, into windows of window_size rows and a rest; the members are, in order, copies of the base estimator each trained on exactly one of the last n_estimators windows. If the base estimator's fit never raises, no call raises.", "quantifier": "all base estimators, window sizes and ensemble sizes >= 1, all histories of partial_fit (any numbers of rows per call) and reset", "why_tests_cant": "the pointer arithmetic of the window and the eviction must be right for every way of splitting a stream into calls", "anchors": ["src/skmultiflow/meta/batch_incremental.py:BatchIncrementalClassifier.partial_fit", "src/skmultiflow/meta/batch_incremental.py:BatchIncrementalClassifier.reset"]}
{"id": "C176", "title": "Batch-incremental prediction is a majority vote over the labels", "statement": "BatchIncrementalClassifier.predict returns for each row the label most members predict. (True for labels 0 and 1, with ties going to 1; refuted for other labels: only 0 and 1 are ever returned.)", "quantifier": "all states, all matrices, all member answers", "why_tests_cant": "tests use binary streams; the property concerns every label set and every number of members", "anchors": ["src/skmultiflow/meta/batch_incremental.py:BatchIncrementalClassifier.predict", "src/skmultiflow/meta/batch_incremental.py:BatchIncrementalClassifier.predict_proba"]}
{"id": "C177", "title": "Batch-incremental training uses the sample weights", "statement": "Each member is trained with the sample weights of the rows of its window. (Refuted: an array of two or more weights raises ValueError before anything is learned, and weights given row by row reach the member as the single weight of the last row.)", "quantifier": "all states with a window not yet full, all weight arrays of at least two numbers", "why_tests_cant": "no test passes sample weights; the claim covers all arrays", "anchors": ["src/skmultiflow/meta/batch_incremental.py:BatchIncrementalClassifier.partial_fit"]}
{"id": "C178", "title": "A failed training of a member does not disable the ensemble", "statement": "When the base estimator raises while being trained on a full window, later partial_fit calls go on learning. (Refuted: every later non-empty partial_fit raises IndexError and changes nothing, until reset.)", "quantifier": "all base estimators, all exception-free histories followed by a failing call, all later calls", "why_tests_cant": "concerns what happens after an exception at an arbitrary point of a stream", "anchors": ["src/skmultiflow/meta/batch_incremental.py:BatchIncrementalClassifier.partial_fit"]}
{"id": "C179", "title": "The accuracy weighted ensemble depends on the stream only through its windows", "statement": "After any exception-free history of partial_fit and reset on AccuracyWeightedEnsembleClassifier, the rows since the last reset are cut into windows of window_size and a rest; the pool is the one obtained by giving the windows one per call; it never has more than n_kept_estimators members.", "quantifier": "all base estimators, parameters and histories", "why_tests_cant": "all ways of splitting the rows into calls", "anchors": ["src/skmultiflow/meta/accuracy_weighted_ensemble.py:AccuracyWeightedEnsembleClassifier.partial_fit"]}
{"id": "C18", "title": "EDDM error distances are exact and it never divides by zero", "statement": "For every 0/1 stream the tracked mean distance equals (position of the last error)/(number of errors) since the last reset, the tracked maximum is positive whenever it is used as divisor, and no call raises.", "quantifier": "every 0/1 stream", "why_tests_cant": "division guards must hold for every prefix", "anchors": ["src/skmultiflow/drift_detection/eddm.py:EDDM.add_element"]}
{"id": "C180", "title": "Members are weighted by their gain over a random classifier on the last window", "statement": "partial_fit of one row either only stores it or, when it fills the window, sets the weight of each member to max(0, MSE_r - MSE_i), with MSE_r the sum over labels of p(c)(1-p(c))^2 on the window and MSE_i the mean of (1 - probability of the true label)^2 (1 for labels the member has not seen), trains a new member on the window, and adds it, or puts it in the place of a member of least weight if its own weight is greater. Weights are never negative.", "quantifier": "all base estimators, reachable states and rows; over the real numbers", "why_tests_cant": "real-number identities over all windows and pools", "anchors": ["src/skmultiflow/meta/accuracy_weighted_ensemble.py:AccuracyWeightedEnsembleClassifier.partial_fit", "src/skmultiflow/meta/accuracy_weighted_ensemble.py:AccuracyWeightedEnsembleClassifier.compute_score", "src/skmultiflow/meta/accuracy_weighted_ensemble.py:AccuracyWeightedEnsembleClassifier.compute_baseline"]}
{"id": "C181", "title": "The weight of a new member is cross-validated", "statement": "The weight of a new member is max(0, MSE_r - mean over the folds of the error, on the test rows, of the base estimator trained on the training rows of that fold alone). (True for base estimators whose fit starts anew; refuted for those whose fit adds to what was learned, as all of the library's own: rows of a test fold were trained on in an earlier fold.)", "quantifier": "all base estimators whose fit starts anew, reachable states, rows that fill the window; a run refutes the rest", "why_tests_cant": "the leak between folds is invisible in accuracy tests", "anchors": ["src/skmultiflow/meta/accuracy_weighted_ensemble.py:AccuracyWeightedEnsembleClassifier.compute_score_crossvalidation", "src/skmultiflow/core/base.py:ClassifierMixin.fit"]}
{"id": "C182", "title": "Accuracy weighted voting", "statement": "predict gives each instance the label with the greatest total weight among the n_estimators members of greatest weight (0 when there are no members), independently of the other instances of the call. (True for calls with one instance; refuted for several: all instances of a call share one vote and get the same label.)", "quantifier": "all base estimators, reachable states and instances; over the real numbers", "why_tests_cant": "needs all states and all batches", "anchors": ["src/skmultiflow/meta/accuracy_weighted_ensemble.py:AccuracyWeightedEnsembleClassifier.predict"]}
{"id": "C183", "title": "The probability of the true label is the one compared", "statement": "The error of a member uses the probability the member gives to the true label. (Refuted: the column is the position of the label among those of the member's window, which is not where the library's classifiers put it; and an estimator with one column per training label makes partial_fit raise IndexError when a label falls in one test fold only.)", "quantifier": "runs with labels 1 and 2, and with a label occurring once", "why_tests_cant": "tests use labels 0..n-1 all present in every window", "anchors": ["src/skmultiflow/meta/accuracy_weighted_ensemble.py:AccuracyWeightedEnsembleClassifier.compute_score"]}
{"id": "C184", "title": "The accuracy weighted ensemble does not fail", "statement": "With a base estimator that never raises and gives each row at least C probabilities, folds of existing rows with at least one test row, positive sizes, and labels 0..C-1, no history of partial_fit and reset raises, and predict answers with one label per row.", "quantifier": "all such estimators, folds, parameters, histories and matrices", "why_tests_cant": "absence of exceptions over all histories", "anchors": ["src/skmultiflow/meta/accuracy_weighted_ensemble.py:AccuracyWeightedEnsembleClassifier"]}
{"id": "C185", "title": "Learn++ builds one ensemble per full window from members that passed their test", "statement": "After an exception-free history of LearnPPClassifier the rows given since creation or the last reset are cut into full windows of window_size rows and a rest, and there is one ensemble for each of the last n_ensembles windows. Each ensemble has at most n_estimators members; each member is a copy of the base estimator trained once or more on half a window of rows of that window, and, tested on half a window of rows of positive weight, had an error below error_threshold and carries E/(1-E); and the members up to it, voting together, had an error below the threshold on the window. With a threshold of at most 1/2 no member votes against its own answer.", "quantifier": "every base estimator with non-negative labels, every random source, threshold, sizes and history of partial_fit and reset", "why_tests_cant": "All histories and cuttings into calls, all draws.", "anchors": ["src/skmultiflow/meta/learn_pp.py partial_fit, __fit_batch, __compute_error"]}
{"id": "C186", "title": "Learn++ predicts the label with the greatest total vote", "statement": "predict returns for each row the first index whose total vote over all members of all ensembles is greatest, each member voting log(1/(error+1e-50)) for its answer; answers are below the number of classes.", "quantifier": "every state, base estimator and list of rows", "why_tests_cant": "All ensembles and answers.", "anchors": ["src/skmultiflow/meta/learn_pp.py __vote_proba, predict_proba, predict"]}
{"id": "C187", "title": "Learn++ training ends", "statement": "With estimators that never fail and consistent classes, partial_fit can only return, raise RuntimeError (base estimator too weak) or never end. It ends if no error measured equals error_threshold exactly: at most 1001 rounds per member. REFUTED in general: an error equal to the threshold resets the patience counter and is not accepted, so a constant classifier on a balanced window never returns.", "quantifier": "every base estimator, random source, history; witness: constant classifier, threshold 1/2, all loop bounds", "why_tests_cant": "Termination and absence of failures for all inputs.", "anchors": ["src/skmultiflow/meta/learn_pp.py __fit_batch 206-263"]}
{"id": "C188", "title": "A member that learns its window ends the construction of the Learn++ ensemble", "statement": "If the base estimator, trained on any rows of the window, answers right on all of them, the ensemble of that window is a single member with error 0.", "quantifier": "every window, random source, threshold in (0,1], number of estimators", "why_tests_cant": "All windows and draws.", "anchors": ["src/skmultiflow/meta/learn_pp.py __fit_batch 206-212"]}
{"id": "C189", "title": "Learn++ goes on learning after a window that was too hard", "statement": "REFUTED: when partial_fit raises because the base estimator is too weak, the full window stays in the buffer; the buffer never has exactly window_size rows again, so every later call returns normally and trains nothing until reset.", "quantifier": "every state whose buffer holds at least window_size rows and every later history without reset; a witness run", "why_tests_cant": "All later histories.", "anchors": ["src/skmultiflow/meta/learn_pp.py partial_fit 182-189"]}
{"id": "C19", "title": "EDDM never alarms before 30 errors and 30 samples", "statement": "A change or a warning is only newly raised by a call when more than 30 errors and at least 30 samples were seen since the last reset, and only on an erroneous sample; change and warning are never set together.", "quantifier": "every stream and history", "why_tests_cant": "must hold at every prefix", "anchors": ["src/skmultiflow/drift_detection/eddm.py:EDDM.add_element"]}
{"id": "C190", "title": "Learn++ requires consistent classes", "statement": "The first partial_fit without classes raises RuntimeError, and so does any later call with a different set of classes; the object is unchanged. REFUTED for reset: the classes survive it, so a reset object refuses another set of classes.", "quantifier": "every state and rows; a witness history", "why_tests_cant": "All states and class lists.", "anchors": ["src/skmultiflow/meta/learn_pp.py partial_fit 168-180, reset"]}
{"id": "C191", "title": "Learn++ predicts labels", "statement": "REFUTED: labels are used as positions among the classes: with classes [1, 2] training raises IndexError, with classes [1, 0] predict does answer the label itself, not the class at that position, and predict before the first training raises TypeError.", "quantifier": "witness runs", "why_tests_cant": "Tests use labels 0..n-1.", "anchors": ["src/skmultiflow/meta/learn_pp.py __vote_proba 284-296, predict"]}
{"id": "C192", "title": "Learn++.NSE's members are trained on full windows", "statement": "After any history of partial_fit and reset calls that did not raise, the rows given since the last reset, in order, are cut into full windows of window_size rows and a rest that is kept for later; every member is the base estimator trained on one of these windows. There is a member for every window (no pruning), for each of the last n_estimators windows (age), or for n_estimators of the windows, or all if there are fewer (error).", "quantifier": "every base estimator, window size, history of calls split in any way, and pruning mode", "why_tests_cant": "The split of rows into calls and the histories are unbounded.", "anchors": ["src/skmultiflow/meta/learn_nse.py: LearnPPNSEClassifier.partial_fit, reset, _train_model"]}
{"id": "C193", "title": "Learn++.NSE's voting weights average the errors over windows", "statement": "Each member's voting weight is the logarithm of the reciprocal of a weighted average of its normalized errors, on its own window and each later window, with sigmoid weights that sum to one; the rows of a window are weighed according to the errors of the ensemble as it was before the window.", "quantifier": "every base estimator, history of calls, slope and crossing point; no pruning or by age", "why_tests_cant": "The weights depend on the whole history of windows.", "anchors": ["src/skmultiflow/meta/learn_nse.py: LearnPPNSEClassifier.partial_fit"]}
{"id": "C194", "title": "Learn++.NSE records the errors of members on every window", "statement": "A member that misclassifies every row of a window is recorded with a positive error on it.", "quantifier": "every state of the ensemble and window", "why_tests_cant": "The error is weighted by the ensemble's own mistakes, a state reached only through histories.", "anchors": ["src/skmultiflow/meta/learn_nse.py: LearnPPNSEClassifier.partial_fit lines 175-195, 211"]}
{"id": "C195", "title": "Learn++.NSE's error pruning drops the worst member", "statement": "With pruning='error', when the new member brings the ensemble above n_estimators, the member removed is the first of those with the greatest error on the newest window, and the other members and their order stay.", "quantifier": "every state, window and base estimator", "why_tests_cant": "Ranges over all ensembles and windows.", "anchors": ["src/skmultiflow/meta/learn_nse.py: LearnPPNSEClassifier.partial_fit lines 227-258"]}
{"id": "C196", "title": "Learn++.NSE predicts the class with the greatest weighted vote", "statement": "predict answers, for each row, the label with the greatest total of the members' normalized probabilities weighted by their voting weights, over members with positive weight; classes a member has not seen get nothing from it.", "quantifier": "every ensemble, set of classes and rows", "why_tests_cant": "Ranges over all ensembles, probability rows and subsets of classes seen.", "anchors": ["src/skmultiflow/meta/learn_nse.py: __vote_proba, _fill_missing_probs, predict_proba, predict"]}
{"id": "C197", "title": "Learn++.NSE goes on after a failed window", "statement": "If the base estimator fails on one window, later partial_fit calls still learn.", "quantifier": "every state reached after an exception and every later history without reset", "why_tests_cant": "Needs all continuations after a failure.", "anchors": ["src/skmultiflow/meta/learn_nse.py: partial_fit lines 164-173, 260-262"]}
{"id": "C198", "title": "Learn++.NSE checks the classes", "statement": "partial_fit raises RuntimeError if no classes are given in the first call, or if later calls give different classes.", "quantifier": "every state and call", "why_tests_cant": "All states and class lists.", "anchors": ["src/skmultiflow/meta/learn_nse.py: partial_fit lines 156-162"]}
{"id": "C199", "title": "Learn++.NSE does not fail on well-formed input", "statement": "If the base estimator can be trained on every non-empty window with known labels and then answers every question with one column per class or per class it has seen, no partial_fit raises, whatever the history.", "quantifier": "every such estimator, window size, pruning and history", "why_tests_cant": "All histories and subsets of classes seen by members.", "anchors": ["src/skmultiflow/meta/learn_nse.py: LearnPPNSEClassifier"]}
{"id": "C20", "title": "Page-Hinkley mean is exact and its statistic is non-negative", "statement": "After k elements since the last reset the tracked mean is their arithmetic mean and the cumulative statistic is >= 0; a change is only reported if the statistic exceeds the threshold and at least min_instances-1 elements were seen; the call after a change starts from a fresh detector.", "quantifier": "every stream of numbers and every parameter setting (exact arithmetic)", "why_tests_cant": "unbounded histories", "anchors": ["src/skmultiflow/drift_detection/page_hinkley.py:PageHinkley.add_element", "src/skmultiflow/drift_detection/page_hinkley.py:PageHinkley.reset"]}
{"id": "C200", "title": "Pipeline training feeds each step with the previous step's output", "statement": "After any history of partial_fit calls, each transform and the final estimator are in the state they would be in had they been trained alone, batch by batch, with what the step before returned for that batch after learning it; the calls return if and only if each step alone would. Steps that are None are passed over; transforms with partial_fit and transform can be trained.", "quantifier": "every list of steps, initial states and history of batches", "why_tests_cant": "All compositions and histories.", "anchors": ["src/skmultiflow/core/pipeline.py: Pipeline.partial_fit, fit"]}
{"id": "C201", "title": "Pipeline.predict composes the transforms", "statement": "predict(X) is the final estimator's prediction for X passed through the transforms in order, None steps passed over, and leaves the final estimator as it was.", "quantifier": "every list of steps and data", "why_tests_cant": "All compositions.", "anchors": ["src/skmultiflow/core/pipeline.py: Pipeline.predict"]}
{"id": "C202", "title": "Pipeline refuses exactly the unusable steps", "statement": "Construction raises TypeError if and only if a step lacks the methods the pipeline needs: transform and partial_fit or partial_fit_transform for the transforms, partial_fit and predict for the last.", "quantifier": "every list of steps", "why_tests_cant": "All combinations of methods.", "anchors": ["src/skmultiflow/core/pipeline.py: Pipeline._validate_steps"]}
{"id": "C203", "title": "Pipeline.partial_fit is all or nothing", "statement": "If partial_fit raises, no step has learned from the batch.", "quantifier": "every list of steps, batch and failure point", "why_tests_cant": "All failure points.", "anchors": ["src/skmultiflow/core/pipeline.py: Pipeline.partial_fit"]}
{"id": "C204", "title": "Pipeline.partial_fit_predict is partial_fit then predict", "statement": "partial_fit_predict(X, y) has the effect of partial_fit(X, y) and returns predict(X) of the trained pipeline.", "quantifier": "every list of steps whose transform leaves the transform's state, and data", "why_tests_cant": "All compositions.", "anchors": ["src/skmultiflow/core/pipeline.py: Pipeline.partial_fit_predict"]}
{"id": "C205", "title": "Pipeline.named_steps finds each step", "statement": "named_steps()[name] is the step with that name; of several with one name, the last.", "quantifier": "every list of steps", "why_tests_cant": "All lists of names.", "anchors": ["src/skmultiflow/core/pipeline.py: Pipeline.named_steps"]}
{"id": "C206", "title": "Half-space trees: the mass profiles count the instances of their windows", "statement": "After any history of training calls, the reference mass of every node of every tree is the number of instances of the reference window whose path passes through the node, and the latest mass is the number of instances since that window; once more than 2w instances have come, the reference window is the last full window of w consecutive instances. Before that the first reference window should hold the first w instances.", "quantifier": "all batches, instances, random draws, window sizes, depths, ensemble sizes, nodes", "why_tests_cant": "the window boundaries fall at all residues of the stream length and the counts are over all nodes and paths", "anchors": ["src/skmultiflow/anomaly_detection/half_space_trees.py:HalfSpaceTrees.partial_fit", "src/skmultiflow/anomaly_detection/half_space_trees.py:HalfSpaceTree._update_mass", "src/skmultiflow/anomaly_detection/half_space_trees.py:HalfSpaceTree.update_model"]}
{"id": "C207", "title": "Half-space trees: a trained detector tells instances apart", "statement": "Once the learning phase is over, the anomaly probability of an instance depends on the instance.", "quantifier": "all histories of w+2 to 2w instances, all instances", "why_tests_cant": "the claim is about every instance the detector could be asked about", "anchors": ["src/skmultiflow/anomaly_detection/half_space_trees.py:HalfSpaceTrees._partial_fit", "src/skmultiflow/anomaly_detection/half_space_trees.py:HalfSpaceTrees.predict_proba"]}
{"id": "C208", "title": "Half-space trees: probabilities", "statement": "Before any training call both probabilities are 0; until more than w+1 instances have come both are a half; afterwards the anomaly probability is the mean over the trees of one minus the score over the maximum score, where the score is the reference mass of the first node on the instance's path that is a leaf or within the size limit, times two to its depth. The anomaly probability lies in [0,1] and the two add up to one.", "quantifier": "all histories, all instances, all parameters with positive window, depth and ensemble size", "why_tests_cant": "range over real-valued instances and unbounded histories", "anchors": ["src/skmultiflow/anomaly_detection/half_space_trees.py:HalfSpaceTrees.predict_proba", "src/skmultiflow/anomaly_detection/half_space_trees.py:HalfSpaceTree._anomaly_score"]}
{"id": "C209", "title": "Half-space trees: predictions", "statement": "An instance is called an anomaly just when its anomaly probability exceeds the threshold, whatever other instances are in the batch.", "quantifier": "all states, thresholds, batches", "why_tests_cant": "all batches and all states", "anchors": ["src/skmultiflow/anomaly_detection/half_space_trees.py:HalfSpaceTrees.predict"]}
{"id": "C21", "title": "KSWIN window never exceeds window_size and holds the newest elements", "statement": "For every stream and every outcome of the statistical test, with an initial window no longer than window_size, the stored window never holds more than window_size elements, always is a suffix of (initial data ++ elements added), and after a detected change holds exactly the last stat_size elements plus the new one.", "quantifier": "every stream, every test outcome, every legal (window_size, stat_size)", "why_tests_cant": "interleavings of test outcomes are unbounded", "anchors": ["src/skmultiflow/drift_detection/kswin.py:KSWIN.add_element"]}
{"id": "C210", "title": "Half-space trees: the trees", "statement": "Every tree is a full binary tree of the given depth, each split is on one of the features and cuts the region of its node in two halves, and the work range of every feature contains [0,1]; every feature can be split on.", "quantifier": "all histories, random draws, numbers of features, depths", "why_tests_cant": "all random draws", "anchors": ["src/skmultiflow/anomaly_detection/half_space_trees.py:HalfSpaceTree.build_tree", "src/skmultiflow/anomaly_detection/half_space_trees.py:HalfSpaceTrees.initialise_work_space"]}
{"id": "C211", "title": "Half-space trees: training never fails", "statement": "Training calls never fail with a positive window size and depth, for any number of features.", "quantifier": "all histories and random draws", "why_tests_cant": "all histories", "anchors": ["src/skmultiflow/anomaly_detection/half_space_trees.py:HalfSpaceTrees.partial_fit", "src/skmultiflow/anomaly_detection/half_space_trees.py:HalfSpaceTree.build_tree"]}
{"id": "C212", "title": "Adaptive random forest: what each tree has learnt", "statement": "After any history of partial_fit, predict and reset calls, the forest has n_estimators trees; each tree started empty and has learnt exactly the rows (with a sample weight other than 0, since the last reset) that came after the tree was made, each with the Poisson number drawn for that row and tree as weight; a tree that never drifted has learnt all of them. A background tree exists from a warning to the next drift and has learnt the rows since the warning. The random numbers are consecutive draws, row by row and tree by tree.", "quantifier": "every tree learner, detector, random source, number of trees and history of calls that raise nothing", "why_tests_cant": "All interleavings of warnings, drifts and draws.", "anchors": ["src/skmultiflow/meta/adaptive_random_forests.py ARFBaseLearner.partial_fit, reset; _partial_fit; _init_ensemble"]}
{"id": "C213", "title": "Adaptive random forest: performance of a tree", "statement": "The performance that weighs the votes of a tree is computed from the answers the tree gave to the rows since its last drift, each before it learnt the row.", "quantifier": "as C212", "why_tests_cant": "All histories.", "anchors": ["src/skmultiflow/meta/adaptive_random_forests.py _partial_fit; ARFBaseLearner.reset"]}
{"id": "C214", "title": "Adaptive random forest: sample weights", "statement": "REFUTED: the sample weight of a row, if not 0, has no influence on the trees or detectors, only on the evaluators; an array or list with one weight for each of two or more rows raises ValueError, and so does a call without rows.", "quantifier": "every forest, rows and weights", "why_tests_cant": "Two runs have to be compared for all weights.", "anchors": ["src/skmultiflow/meta/adaptive_random_forests.py partial_fit; _partial_fit", "src/skmultiflow/utils/validation.py check_weights"]}
{"id": "C215", "title": "Adaptive random forest: max_features and reset", "statement": "The number of features considered at a split is between 1 and the number of features of the data. REFUTED for reset: the number computed from the first data replaces the parameter, so a forest that was reset (a fraction, 'auto', 'log2' or None) keeps it for data with another number of features, and it keeps its classes.", "quantifier": "every setting and number of features", "why_tests_cant": "All settings.", "anchors": ["src/skmultiflow/meta/adaptive_random_forests.py _set_max_features; reset"]}
{"id": "C216", "title": "Adaptive random forest: labels beyond the announced classes", "statement": "REFUTED: if a tree votes for a label greater than all classes given to the first partial_fit, predict and predict_proba raise IndexError; met by a run that learns such a label.", "quantifier": "every forest, instance and vote", "why_tests_cant": "All votes.", "anchors": ["src/skmultiflow/meta/adaptive_random_forests.py predict_proba"]}
{"id": "C217", "title": "Adaptive random forest: weighted votes", "statement": "Each tree with votes divides its voting power among the classes as its votes; the probabilities sum to 1 and are the parts of all votes; predict answers the least class with the greatest part. REFUTED: a tree that was always wrong (accuracy 0) has voting power 1, more than any tree that was wrong once; with kappa as performance, votes can be negative, probabilities 3/2 and -1/2, and the worse tree wins.", "quantifier": "every number of trees, votes and performances with positive total power; runs for the refutations", "why_tests_cant": "All dictionaries of votes.", "anchors": ["src/skmultiflow/meta/adaptive_random_forests.py _get_votes_for_instance; predict_proba; predict"]}
{"id": "C218", "title": "Adaptive random forest: when trees are replaced", "statement": "A tree is warned or replaced exactly at the rows it learns where its detector reports a change after being told whether the tree errs on the row it has just learnt (not whether its earlier answer was wrong); rows with draw 0 change nothing but the evaluator.", "quantifier": "every detector, tree learner, life of a member and next row", "why_tests_cant": "All detector states.", "anchors": ["src/skmultiflow/meta/adaptive_random_forests.py ARFBaseLearner.partial_fit"]}
{"id": "C219", "title": "AdaptiveRandomForestRegressor: every tree has learnt exactly the rows since it was made", "statement": "After any sequence of partial_fit, predict and reset calls the forest has n_estimators members and has counted each row since the last reset once. The tree of each member started as a tree that had learnt nothing (the first one, one that was reset, or one made at a warning) with a new performance evaluator, and has met exactly the rows since it was made: all rows of the forest if the member has had no drift. Of each row whose Poisson draw is positive the tree is asked first, the answer goes to the evaluator, and then it learns the row with the draw as weight; rows with the draw 0 are skipped. A background tree exists exactly from a warning to the next drift and has met the rows since the warning in the same way. The generator made with the seed first gives the members their seeds and then one draw for each row and member, in order.", "quantifier": "all histories of calls, trees, detectors, evaluators, generators and seeds", "why_tests_cant": "The claim is about every history, with every pattern of draws, warnings and drifts.", "anchors": ["src/skmultiflow/meta/adaptive_random_forest_regressor.py:AdaptiveRandomForestRegressor.partial_fit", "src/skmultiflow/meta/adaptive_random_forest_regressor.py:ARFRegBaseLearner.partial_fit", "src/skmultiflow/meta/adaptive_random_forest_regressor.py:ARFRegBaseLearner.reset"]}
{"id": "C22", "title": "KSWIN accepts every stream for every accepted configuration", "statement": "If the constructor accepts (alpha, window_size, stat_size), no later add_element call raises.", "quantifier": "every accepted configuration and every stream", "why_tests_cant": "failure only appears for particular configurations after window_size elements", "anchors": ["src/skmultiflow/drift_detection/kswin.py:KSWIN.__init__", "src/skmultiflow/drift_detection/kswin.py:KSWIN.add_element"]}
{"id": "C220", "title": "AdaptiveRandomForestRegressor: drifts and warnings are where the detectors report them", "statement": "A member has a drift (a warning) at a row exactly if it learns the row and its drift (warning) detector reports a change after being told the row's value: the watched quantity (the error, its square, or the answer) of the answer given before learning, normalised by the same quantity for the rows learnt since the last drift. At a drift the background tree, if there is one, takes over, and otherwise the tree is reset.", "quantifier": "all histories of a member and all rows", "why_tests_cant": "The claim relates every step to the whole history since the last drift.", "anchors": ["src/skmultiflow/meta/adaptive_random_forest_regressor.py:ARFRegBaseLearner.partial_fit", "src/skmultiflow/meta/adaptive_random_forest_regressor.py:ARFRegBaseLearner._normalize_drift_input"]}
{"id": "C221", "title": "AdaptiveRandomForestRegressor: detectors are told numbers between 0 and 1", "statement": "The number told to the detectors is the standard score of the last watched value among all since the last drift, with the sample standard deviation, moved from [-3, 3] to [0, 1]; it is therefore between 0 and 1, as detectors like ADWIN assume.", "quantifier": "all sequences of watched values", "why_tests_cant": "The online computation must agree with the definition on every sequence, and the bound must hold on every sequence.", "anchors": ["src/skmultiflow/meta/adaptive_random_forest_regressor.py:ARFRegBaseLearner._normalize_drift_input"]}
{"id": "C222", "title": "AdaptiveRandomForestRegressor: max_features", "statement": "The number of features a tree looks at is between 1 and the number of features of the data, a fraction outside (0, 1] is refused with ValueError, and a reset forest uses the number configured.", "quantifier": "all settings, numbers of features and states", "why_tests_cant": "It is about every setting and every history with a reset.", "anchors": ["src/skmultiflow/meta/adaptive_random_forest_regressor.py:AdaptiveRandomForestRegressor._set_max_features", "src/skmultiflow/meta/adaptive_random_forest_regressor.py:AdaptiveRandomForestRegressor.reset"]}
{"id": "C223", "title": "AdaptiveRandomForestRegressor: the prediction is a sound average of the trees' answers", "statement": "With mean and weights by error the weights of the trees are not negative, have the sum 1 and are greater the smaller the error; without errors the prediction is the plain mean; with the median at least half of the answers are at most, and at least half at least, the prediction. In each case the prediction is a number between the least and the greatest answer of the trees. A tree that has just been made does not count more than trees that have been tried.", "quantifier": "all numbers of trees, answers and errors, over the reals", "why_tests_cant": "Universal over lists of answers and errors of every length.", "anchors": ["src/skmultiflow/meta/adaptive_random_forest_regressor.py:AdaptiveRandomForestRegressor.predict"]}
{"id": "C224", "title": "Streaming random patches: every estimator learns exactly the rows it should", "statement": "After any calls of partial_fit, predict and reset, StreamingRandomPatchesClassifier has counted the rows since the last reset and has n_estimators members. The estimator of a member is one that had learnt nothing and has learnt exactly the rows since it was made, in order, each reduced to the features of the member and with the weight drawn for it (1 with random subspaces), and nothing else. A background estimator exists from a warning to the next drift and has learnt the rows since the warning.", "quantifier": "all base estimators, detectors, evaluators, random generators, settings and histories of calls on instances with one number of features", "why_tests_cant": "drifts and draws can come in any order; the claim is about every history", "anchors": ["src/skmultiflow/meta/streaming_random_patches.py: StreamingRandomPatchesClassifier._partial_fit, StreamingRandomPatchesBaseLearner.partial_fit, _trigger_warning, reset"]}
{"id": "C225", "title": "Streaming random patches: evaluators and detectors", "statement": "The evaluator of a member holds its answers since its last drift, each given before learning the row and with the sample weight. The detectors are told, for each row the member learns, whether it is wrong about the row after learning it; a drift (warning) happens exactly when the drift (warning) detector then reports a change.", "quantifier": "all estimators, detectors, evaluators, draws, rows and histories", "why_tests_cant": "a claim about every order of answers, drifts and warnings", "anchors": ["src/skmultiflow/meta/streaming_random_patches.py: StreamingRandomPatchesClassifier._partial_fit, StreamingRandomPatchesBaseLearner.partial_fit"]}
{"id": "C226", "title": "Streaming random patches: subspaces", "statement": "Every member and background estimator uses the requested number of features without repetition; for at most 20 features the members start with different subspaces, chosen at random among all combinations, and making them ends.", "quantifier": "all numbers of features, settings, generators and histories", "why_tests_cant": "all numbers of features and members; that a loop never ends cannot be seen by running it", "anchors": ["src/skmultiflow/meta/streaming_random_patches.py: _init_ensemble, _init_ensemble_members, get_all_k_combinations, get_random_k_combinations, _reset_subset"]}
{"id": "C227", "title": "Streaming random patches: the training method stays the one chosen", "statement": "The training method given to the constructor is the one used by every ensemble, in particular after reset.", "quantifier": "all settings and histories", "why_tests_cant": "a claim about all histories, over several resets and numbers of features", "anchors": ["src/skmultiflow/meta/streaming_random_patches.py: _init_ensemble, reset"]}
{"id": "C228", "title": "Streaming random patches: nominal features", "statement": "Every estimator is told which of its features are nominal, as positions in its subspace, before it learns its first row.", "quantifier": "all lists of nominal features, subspaces and histories", "why_tests_cant": "warnings and drifts can coincide; the claim is about every history", "anchors": ["src/skmultiflow/meta/streaming_random_patches.py: StreamingRandomPatchesBaseLearner.partial_fit, _remap_nominal_attributes, reset"]}
{"id": "C229", "title": "Streaming random patches: sample weights", "statement": "The sample weights given to partial_fit influence what the estimators learn; a row of weight 0 is not learnt.", "quantifier": "all rows, weights and states", "why_tests_cant": "all weights", "anchors": ["src/skmultiflow/meta/streaming_random_patches.py: partial_fit, _partial_fit"]}
{"id": "C23", "title": "HDDM_A implements the A-test exactly and never raises", "statement": "For every stream of numbers and every configuration with confidences in (0,1] no call raises; detected_change and detected_warning_zone answer as the textbook A-test on the values since the last restart; estimation is the mean of these values, or, until as many of them have arrived as the block which triggered the restart had, the mean of that block; delay is the number of values in that mean.", "quantifier": "every stream and every configuration with confidences in (0,1]", "why_tests_cant": "division guards must hold in every reachable state, including after each reset", "anchors": ["src/skmultiflow/drift_detection/hddm_a.py:HDDM_A.add_element", "src/skmultiflow/drift_detection/hddm_a.py:HDDM_A._update_estimations"]}
{"id": "C230", "title": "Streaming random patches: votes", "statement": "predict_proba returns, for each class, the sum over the members of their accuracy times their probability of the class; these are probabilities, more accurate members weigh more, and predict answers the least class with most votes, for any number of instances. Before training the answer is 0.", "quantifier": "all members, probabilities, accuracies and instances; over the reals", "why_tests_cant": "all real probabilities and accuracies", "anchors": ["src/skmultiflow/meta/streaming_random_patches.py: predict, predict_proba, _predict_proba"]}
{"id": "C231", "title": "get_params lists exactly the reachable parameters", "statement": "get_params() returns one entry for each parameter that can be reached from the estimator through components that are estimators, named by its path joined with '__', with its current value, and no other entry. It answers for every estimator that is not (through its parameters) inside itself, and raises for one that is its own parameter.", "quantifier": "all classes and parameter names (without '__', not ending in '_'), all objects and nestings of any depth", "why_tests_cant": "The nesting has no bound and sharing of components is arbitrary; tests see a few pipelines.", "anchors": ["src/skmultiflow/core/base.py: BaseEstimator.get_params, _get_param_names"]}
{"id": "C232", "title": "set_params sets exactly the named parameters", "statement": "set_params with names of the estimator's own parameters sets each of them to the given value, leaves its other parameters and every other object alone, whatever the order of the arguments. A name a__b__c sets parameter c of the component that a__b leads to, at any depth, and nothing else.", "quantifier": "all objects, nestings, parameters and values", "why_tests_cant": "Depth, sharing and the combinations of arguments are unbounded.", "anchors": ["src/skmultiflow/core/base.py: BaseEstimator.set_params"]}
{"id": "C233", "title": "Setting the parameters an estimator has changes nothing", "statement": "set_params(**get_params()), or with any part of what get_params() returned, leaves every object as it was.", "quantifier": "all estimators that store their parameters, all nestings and sharing, all selections and orders of the entries", "why_tests_cant": "All selections of the entries of arbitrarily nested objects.", "anchors": ["src/skmultiflow/core/base.py: BaseEstimator.get_params, set_params"]}
{"id": "C234", "title": "A component can be replaced and configured in one call", "statement": "set_params(k=new, k__p=v) sets k to the new component and then p of the new component to v, and so does the call with the arguments the other way round: the parameter never goes to the replaced component.", "quantifier": "all estimators, components, parameters, values, both orders", "why_tests_cant": "It must hold for every estimator and order of arguments.", "anchors": ["src/skmultiflow/core/base.py: BaseEstimator.set_params"]}
{"id": "C235", "title": "A refused set_params changes nothing", "statement": "set_params with a name the estimator does not have raises a ValueError and changes nothing. (REFUTED: parameters given before the unknown name stay set; a nested name of a parameter that is not an estimator raises an AttributeError.)", "quantifier": "all estimators, parameters and values", "why_tests_cant": "The state after a failure is not looked at by tests of the exception.", "anchors": ["src/skmultiflow/core/base.py: BaseEstimator.set_params"]}
{"id": "C236", "title": "A clone is an independent, untrained copy", "statement": "clone(e) returns an object with the same structure and the same parameters, made only of new objects (nothing in it is shared with the original or with anything that existed), whose estimators are in the state their constructor left them in; no existing object is changed. Every estimator or collection of estimators made of constructors that store their parameters can be cloned; other values raise a TypeError.", "quantifier": "all objects of any depth and sharing, all constructors that create objects without changing existing ones", "why_tests_cant": "Absence of sharing must hold for every nesting and every constructor.", "anchors": ["src/skmultiflow/core/base.py: clone"]}
{"id": "C237", "title": "Every estimator of the library can be cloned and configured", "statement": "clone works on every estimator of the library and gives one that behaves as constructed with the same arguments, and set_params of a listed parameter takes effect. (REFUTED: StreamingRandomPatchesClassifier without nominal attributes cannot be cloned; a clone of a DDM, such as the random patches make of their detector, raises a TypeError at its first element because get_params reports None for min_num_instances; set_params(min_num_instances=n) on a DDM is accepted, reported by get_params and has no effect.)", "quantifier": "all parameters of DDM and all random patches classifiers without nominal attributes", "why_tests_cant": "The failure needs each class together with clone; the classes' own tests construct them directly.", "anchors": ["src/skmultiflow/core/base.py: clone, BaseEstimator.set_params", "src/skmultiflow/drift_detection/ddm.py: DDM.__init__", "src/skmultiflow/meta/streaming_random_patches.py: StreamingRandomPatchesClassifier.__init__, StreamingRandomPatchesBaseLearner.__init__"]}
{"id": "C238", "title": "HoeffdingTreeRegressor's measurements are those of its tree", "statement": "After any history of partial_fit calls and resets, get_model_measurements of HoeffdingTreeRegressor gives the numbers of split nodes, active and inactive leaves, nodes and the depth of the tree it holds.", "quantifier": "every configuration, history, sample, weight, number type and size estimate", "why_tests_cant": "All histories with splits, memory limits and resets.", "anchors": ["src/skmultiflow/trees/hoeffding_tree_regressor.py HoeffdingTreeRegressor", "src/skmultiflow/trees/hoeffding_tree.py get_model_measurements"]}
{"id": "C239", "title": "A sample changes HoeffdingTreeRegressor only where it arrives", "statement": "After partial_fit with one sample, every instance that does not reach the sample's leaf reaches the same node as before with the same statistics; with leaf_prediction='mean' it is answered the same.", "quantifier": "every reached state, sample, weight and other instance", "why_tests_cant": "All trees and all pairs of instances.", "anchors": ["src/skmultiflow/trees/hoeffding_tree_regressor.py _partial_fit", "src/skmultiflow/trees/_nodes/htr_nodes.py"]}
{"id": "C24", "title": "HDDM_W two_side_option selects two-sided monitoring", "statement": "With two_side_option=True the detector also monitors decreases: some stream makes it behave differently from two_side_option=False.", "quantifier": "every stream, every configuration", "why_tests_cant": "absence of an effect for all streams cannot be shown by tests", "anchors": ["src/skmultiflow/drift_detection/hddm_w.py:HDDM_W.add_element", "src/skmultiflow/drift_detection/hddm_w.py:HDDM_W._update_decr_statistics"]}
{"id": "C240", "title": "The leaf a sample reaches gains exactly its weight, target and squared target", "statement": "After partial_fit with one sample of weight w and target y, the node where the sample's leaf was has statistics with w, w*y and w*y*y added to what the leaf had, whether it splits or not.", "quantifier": "every reached state and sample", "why_tests_cant": "All trees and samples.", "anchors": ["src/skmultiflow/trees/_nodes/htr_nodes.py update_stats"]}
{"id": "C241", "title": "Between resets a regression tree only grows", "statement": "A call never removes a split node, one sample makes at most one split, without growth the structure stays, and an instance's new path extends the old one.", "quantifier": "every reached state and batch", "why_tests_cant": "All histories.", "anchors": ["src/skmultiflow/trees/hoeffding_tree_regressor.py"]}
{"id": "C242", "title": "HoeffdingTreeRegressor with mean leaves answers within the range of the targets", "statement": "With leaf_prediction='mean' and non-negative weights every prediction is nan, 0 (a node without statistics does not occur) or within any interval that contains the targets seen since the last reset, through all splits.", "quantifier": "every history, interval, instance; over the reals", "why_tests_cant": "Split statistics come from differences of sums in search trees: only an invariant shows they stay means of samples.", "anchors": ["src/skmultiflow/trees/hoeffding_tree_regressor.py predict", "src/skmultiflow/trees/_attribute_observer/numeric_attribute_regression_observer.py"]}
{"id": "C243", "title": "The split rule of HoeffdingTreeRegressor", "statement": "A sample splits its leaf exactly when growth is allowed, grace_period of weight has come, and among the suggestions either there is one only, or the best merit is positive and the ratio of the second to the best is under 1 minus the Hoeffding bound or the bound is under tie_threshold; the test installed is the best suggestion's and the branches start from its distributions.", "quantifier": "every reached state and sample with defined merits", "why_tests_cant": "All states.", "anchors": ["src/skmultiflow/trees/hoeffding_tree_regressor.py _attempt_to_split"]}
{"id": "C244", "title": "Perceptron leaves keep normalised weights and answer within three standard deviations", "statement": "With int(sample_weight) >= 1, the absolute values of the weights of every leaf add up to one (or are nan), and an instance within three standard deviations of the mean in each numeric attribute (and within [-1, 1] in nominal ones) is answered nan or a value within three standard deviations of the mean target, when the samples have two or more attributes.", "quantifier": "every history, instance; over the reals", "why_tests_cant": "All histories with splits; weights are copied between leaves.", "anchors": ["src/skmultiflow/trees/_nodes/htr_nodes.py LearningNodePerceptron", "src/skmultiflow/trees/hoeffding_tree_regressor.py normalize_sample"]}
{"id": "C245", "title": "The regressor standardises by the mean and deviation of what it saw", "statement": "samples_seen and the sums are the weighted sums over all samples, and the deviations computed from them are those of the samples, when there are two or more attributes. REFUTED for one attribute: the sum over a single column is an empty array, and the next sample raises IndexError.", "quantifier": "every history; every later sample", "why_tests_cant": "All streams.", "anchors": ["src/skmultiflow/trees/hoeffding_tree_regressor.py _partial_fit 350-359"]}
{"id": "C246", "title": "reset gives back a new HoeffdingTreeRegressor", "statement": "With leaf_prediction='mean' the tree grown after reset is the one a new regressor would grow. REFUTED for perceptron leaves: samples_seen and the sums survive reset, and predictions differ from those of a new regressor.", "quantifier": "every history before and after", "why_tests_cant": "All histories.", "anchors": ["src/skmultiflow/trees/hoeffding_tree.py reset"]}
{"id": "C247", "title": "predict gives one number per row", "statement": "A trained HoeffdingTreeRegressor answers one number per row. REFUTED for an untrained one: a single 0.0 whatever the number of rows.", "quantifier": "every state and matrix", "why_tests_cant": "All sizes.", "anchors": ["src/skmultiflow/trees/hoeffding_tree_regressor.py predict"]}
{"id": "C248", "title": "A sample of small weight trains a perceptron leaf", "statement": "REFUTED: a sample whose weight is below one leaves the weights of the perceptron unchanged whatever its target, because the number of updates is int(weight), although all the sums count it.", "quantifier": "every leaf and sample; a run", "why_tests_cant": "Holds for all targets.", "anchors": ["src/skmultiflow/trees/_nodes/htr_nodes.py learn_one 86-103"]}
{"id": "C249", "title": "Options of the split attempt do not break training", "statement": "REFUTED: with remove_poor_atts two constant attributes raise ZeroDivisionError at the grace period; with no_preprune a single constant attribute is split and an instance in the empty branch is answered nan.", "quantifier": "runs", "why_tests_cant": "Depends on the state at the grace period.", "anchors": ["src/skmultiflow/trees/hoeffding_tree_regressor.py _attempt_to_split 441-500"]}
{"id": "C25", "title": "HDDM_W estimation is an exponentially weighted mean of the inputs", "statement": "For inputs in [lo,hi] and lambda in [0,1] the estimation stays in [lo,hi] and equals lambda*x + (1-lambda)*previous since the last drift; warning and change flags are never both set.", "quantifier": "every stream of values in an interval, every configuration (exact arithmetic)", "why_tests_cant": "unbounded histories with resets", "anchors": ["src/skmultiflow/drift_detection/hddm_w.py:HDDM_W.add_element"]}
{"id": "C250", "title": "RSLVQ predicts the class of the nearest prototype", "statement": "predict answers, for every row, the class of the prototype at the least Euclidean distance, of the first such prototype when several are at that distance.", "quantifier": "every state with prototypes, every batch of rows, every positive sigma", "why_tests_cant": "The distances are over all real positions.", "anchors": ["src/skmultiflow/prototype/robust_soft_learning_vector_quantization.py:RobustSoftLearningVectorQuantization.predict", "src/skmultiflow/prototype/robust_soft_learning_vector_quantization.py:RobustSoftLearningVectorQuantization._costf"]}
{"id": "C251", "title": "RSLVQ answers only declared classes", "statement": "After any calls of partial_fit, predict answers one label per row and every label is one of the declared classes, which are 0, ..., n-1.", "quantifier": "every history of calls, every batch", "why_tests_cant": "Needs every history, and uninitialised memory.", "anchors": ["src/skmultiflow/prototype/robust_soft_learning_vector_quantization.py:RobustSoftLearningVectorQuantization.partial_fit", "src/skmultiflow/prototype/robust_soft_learning_vector_quantization.py:RobustSoftLearningVectorQuantization.predict", "src/skmultiflow/prototype/robust_soft_learning_vector_quantization.py:RobustSoftLearningVectorQuantization._validate_train_parms"]}
{"id": "C252", "title": "RSLVQ prototypes start at the class mean", "statement": "In the call where a class appears for the first time its prototype is put at the mean of the rows of that class in that call (plus 2r-1 per coordinate with more than one prototype per class); prototypes of classes seen before are kept.", "quantifier": "every history, every call", "why_tests_cant": "Quantifies over histories.", "anchors": ["src/skmultiflow/prototype/robust_soft_learning_vector_quantization.py:RobustSoftLearningVectorQuantization._validate_train_parms"]}
{"id": "C253", "title": "RSLVQ training attracts the right prototype and repels the wrong one", "statement": "Training moves prototypes only for samples whose nearest prototype has another class, and then moves the nearest prototype of the class of the sample towards the sample and the nearest wrong one away from it; afterwards the right one is closer and the wrong one farther.", "quantifier": "every history of calls, every sample, every sigma > 0", "why_tests_cant": "Real-valued, every history.", "anchors": ["src/skmultiflow/prototype/robust_soft_learning_vector_quantization.py:RobustSoftLearningVectorQuantization._optimize", "src/skmultiflow/prototype/robust_soft_learning_vector_quantization.py:RobustSoftLearningVectorQuantization._update_prototype_vanilla", "src/skmultiflow/prototype/robust_soft_learning_vector_quantization.py:RobustSoftLearningVectorQuantization._p"]}
{"id": "C254", "title": "RSLVQ adadelta steps go the right way", "statement": "With gradient_descent='adadelta' every coordinate moves towards the sample if the class is right and away from it otherwise, and the running means stay non-negative along every run.", "quantifier": "every history, every sample, gamma in [0,1)", "why_tests_cant": "Real-valued, every history.", "anchors": ["src/skmultiflow/prototype/robust_soft_learning_vector_quantization.py:RobustSoftLearningVectorQuantization._update_prototype_adadelta"]}
{"id": "C255", "title": "RSLVQ refuses unknown labels", "statement": "A label outside the declared classes is refused with ValueError and the classes are 0, ..., n-1; classes may be given as an array.", "quantifier": "every state, every call", "why_tests_cant": "Every label in every state.", "anchors": ["src/skmultiflow/prototype/robust_soft_learning_vector_quantization.py:RobustSoftLearningVectorQuantization.partial_fit", "src/skmultiflow/prototype/robust_soft_learning_vector_quantization.py:RobustSoftLearningVectorQuantization._validate_train_parms"]}
{"id": "C256", "title": "RSLVQ starts from the initial prototypes and leaves them alone", "statement": "initial_prototypes is where training starts; later calls continue from what was learned, and the array of the user is not changed.", "quantifier": "every state, every call", "why_tests_cant": "Every history.", "anchors": ["src/skmultiflow/prototype/robust_soft_learning_vector_quantization.py:RobustSoftLearningVectorQuantization._validate_train_parms"]}
{"id": "C257", "title": "RSLVQ constructor checks", "statement": "The constructor refuses sigma <= 0 with ValueError and accepts a list of prototypes per class.", "quantifier": "every argument", "why_tests_cant": "Every value of the arguments.", "anchors": ["src/skmultiflow/prototype/robust_soft_learning_vector_quantization.py:RobustSoftLearningVectorQuantization.__init__"]}
{"id": "C258", "title": "RSLVQ training does not depend on how rows are cut into calls", "statement": "Once every class was seen, one call with the rows of two calls leaves the same prototypes as the two calls.", "quantifier": "every history, every pair of calls", "why_tests_cant": "Every pair of batches.", "anchors": ["src/skmultiflow/prototype/robust_soft_learning_vector_quantization.py:RobustSoftLearningVectorQuantization.partial_fit", "src/skmultiflow/prototype/robust_soft_learning_vector_quantization.py:RobustSoftLearningVectorQuantization._optimize"]}
{"id": "C259", "title": "SAM-kNN without long-term memory is k nearest neighbours", "statement": "With use_ltm=False, SAMKNNClassifier.predict answers 0 before the first sample and then the label elected by the min(n_neighbors, size) nearest samples of the short-term memory, by count or by inverse distance, ties to the least label; the label of a stored sample if labels lie in -128..127. REFUTED beyond: labels are cut to eight bits, a classifier trained on label 200 only answers -56.", "quantifier": "every short-term memory, query, weighting and n_neighbors >= 1", "why_tests_cant": "All memories and ties.", "anchors": ["src/skmultiflow/lazy/sam_knn.py SAMKNNClassifier.predict, _predict_by_stm, get_maj_label, get_distance_weighted_label", "src/skmultiflow/lazy/src/libNearestNeighbors/nearestNeighbor.cpp"]}
{"id": "C26", "title": "Drift detectors: reset equals reconstruction", "statement": "For DDM, EDDM, PageHinkley, HDDM_A and HDDM_W, calling reset() in any state yields a detector that answers every later call sequence exactly as a newly constructed (and reset) one with the same parameters.", "quantifier": "every state and every later call sequence", "why_tests_cant": "all pasts times all futures", "anchors": ["src/skmultiflow/drift_detection/ddm.py:DDM.reset", "src/skmultiflow/drift_detection/eddm.py:EDDM.reset", "src/skmultiflow/drift_detection/page_hinkley.py:PageHinkley.reset", "src/skmultiflow/drift_detection/hddm_a.py:HDDM_A.reset", "src/skmultiflow/drift_detection/hddm_w.py:HDDM_W.reset"]}
{"id": "C260", "title": "SAM-kNN answers with the memory that was right most often", "statement": "With both memories of at least n_neighbors samples, the three answers are those elected by the short-term memory, the long-term memory and their union, and predict returns the one whose predictions of the samples now in the short-term memory, each made when that sample arrived, were right most often; ties go to the short-term, then the long-term memory.", "quantifier": "every stream, configuration and query", "why_tests_cant": "The records must follow every cut of the memory in every history.", "anchors": ["src/skmultiflow/lazy/sam_knn.py _predict_by_all_memories, predict, _partial_fit"]}
{"id": "C261", "title": "The short-term memory is the recent past", "statement": "After any stream the short-term memory of SAMKNNClassifier holds the most recent samples in order; without use_ltm the long-term memory stays empty; the cutting of the stream in batches does not matter.", "quantifier": "every stream, configuration and batch cutting", "why_tests_cant": "All histories of shrinking.", "anchors": ["src/skmultiflow/lazy/sam_knn.py _partial_fit, partial_fit, size_check_STMLTM, size_check_fade_out"]}
{"id": "C262", "title": "SAM-kNN always predicts", "statement": "SAMKNNClassifier.predict never fails on any state and returns one label per row, each row as if alone.", "quantifier": "every state, configuration and matrix", "why_tests_cant": "All states.", "anchors": ["src/skmultiflow/lazy/sam_knn.py predict, _predict_by_all_memories, _predict_by_stm"]}
{"id": "C263", "title": "max_window_size bounds the memories", "statement": "The memories together never hold more than max_window_size samples. Proved without long-term memory, and with it if the number of different labels is at most ltm_size*max_window_size. REFUTED otherwise: clustering keeps one centre per label, with max_window_size=4 and eight labels eight samples are stored and the ninth raises IndexError.", "quantifier": "every stream and configuration", "why_tests_cant": "All streams.", "anchors": ["src/skmultiflow/lazy/sam_knn.py size_check_STMLTM, cluster_down, size_check_fade_out"]}
{"id": "C264", "title": "SAM-kNN training never fails", "statement": "partial_fit never fails for the documented options. Proved for stm_size_option='maxACC' with min_stm_size >= 1 under the condition of C263. REFUTED for stm_size_option=None, documented as a fixed sliding window: every stream longer than max_window_size raises AttributeError, because the distance matrix was never created.", "quantifier": "every stream and configuration", "why_tests_cant": "The failure needs a stream longer than the window.", "anchors": ["src/skmultiflow/lazy/sam_knn.py __init__, size_check_STMLTM, size_check_fade_out, STMSizer"]}
{"id": "C265", "title": "Cleaning removes exactly the contradicting samples", "statement": "A sample of the short-term memory removes from a cleaned list exactly those among its n_neighbors nearest with another label that are no further than its furthest agreeing neighbour; learning a sample applies this to the long-term memory.", "quantifier": "every memory, list and sample", "why_tests_cant": "All geometries and ties.", "anchors": ["src/skmultiflow/lazy/sam_knn.py clean_samples, _partial_fit"]}
{"id": "C266", "title": "The window with the best interleaved accuracy is kept", "statement": "With stm_size_option='maxACC' the new window is the first of n, n/2, n/4, ... samples (at least min_stm_size) with the best interleaved test-train accuracy. Proved for one call whose remembered results belong to the windows; the distance matrix always belongs to the memory. REFUTED for runs: after an odd window was halved the remembered results are of another window, and a window whose tests are all right is cut to two samples.", "quantifier": "every memory and history", "why_tests_cant": "All histories of shrinking.", "anchors": ["src/skmultiflow/lazy/sam_knn.py STMSizer.getMaxAccWindowSize, adaptHistories"]}
{"id": "C267", "title": "min_stm_size below n_neighbors keeps the memory small", "statement": "REFUTED: the short-term memory should grow while a larger window predicts better. With min_stm_size m <= n_neighbors < 2m it never reaches 2m samples, whatever the stream: the accuracy of m samples has no test, is not a number, and np.argmax prefers it.", "quantifier": "every stream and every such configuration", "why_tests_cant": "All streams.", "anchors": ["src/skmultiflow/lazy/sam_knn.py STMSizer.getMaxAccWindowSize, getInterleavedTestTrainAcc"]}
{"id": "C268", "title": "The extremely fast decision tree remembers all its samples at the root", "statement": "After any sequence of ExtremelyFastDecisionTreeClassifier.partial_fit and reset calls the class distribution kept at the root equals, for every class, the total weight of the samples of the class trained since the last reset, whatever splits, replacements, kills and memory management happened meanwhile.", "quantifier": "all histories of partial_fit and reset, all rows, labels, weights, settings and object sizes", "why_tests_cant": "histories are unbounded and interleave splitting, killing and switching leaves off", "anchors": ["src/skmultiflow/trees/extremely_fast_decision_tree.py:ExtremelyFastDecisionTreeClassifier._partial_fit", "src/skmultiflow/trees/_nodes/efdtc_nodes.py:EFDTSplitNode.learn_one"]}
{"id": "C269", "title": "The extremely fast decision tree uses the weight of every sample", "statement": "partial_fit(X, y, sample_weight=w) trains every row with its own weight w[i].", "quantifier": "all states, all rows, all weights", "why_tests_cant": "tests pass one row at a time or equal weights", "anchors": ["src/skmultiflow/trees/extremely_fast_decision_tree.py:ExtremelyFastDecisionTreeClassifier.partial_fit", "src/skmultiflow/utils/utils.py:get_dimensions"]}
{"id": "C27", "title": "Classification evaluator: cells and marginals are the weighted counts", "statement": "After any sequence of add_result calls every confusion matrix cell equals the total weight of the positive-weight results with that (true, predicted) pair, row sums, column sums and the diagonal sum equal the corresponding sums of cells, n_samples equals the number of results, and the known classes are the initial ones plus the labels observed with positive weight.", "quantifier": "every sequence of (true, predicted, weight) results", "why_tests_cant": "arbitrary label sets and histories", "anchors": ["src/skmultiflow/metrics/_confusion_matrix.pyx:ConfusionMatrix.update", "src/skmultiflow/metrics/_classification_performance_evaluator.pyx:ClassificationPerformanceEvaluator.add_result"]}
{"id": "C270", "title": "The counters of the extremely fast decision tree are right", "statement": "After any history the numbers of split nodes, active leaves and inactive leaves reported by the tree are those of the tree.", "quantifier": "all histories, settings and memory sizes", "why_tests_cant": "depends on the order in which nodes are replaced, killed and switched off", "anchors": ["src/skmultiflow/trees/extremely_fast_decision_tree.py:ExtremelyFastDecisionTreeClassifier._reevaluate_best_split", "src/skmultiflow/trees/_nodes/efdtc_nodes.py:EFDTSplitNode.count_nodes"]}
{"id": "C271", "title": "The split rule and the kill rule of the extremely fast decision tree", "statement": "A leaf that is due becomes a split on the best suggestion exactly if it has seen two classes and the best suggestion exceeds the merit of not splitting by more than the Hoeffding bound or the bound is below tie_threshold; its statistics and observers move to the split node.  A split node that is re-evaluated is replaced by a leaf exactly if it has seen two classes and not splitting exceeds the best suggestion by more than the bound; the leaf keeps its statistics and observers.", "quantifier": "all leaves, split nodes, samples and settings, for ordered numbers (no NaN)", "why_tests_cant": "the rule compares real-valued merits of arbitrary distributions", "anchors": ["src/skmultiflow/trees/extremely_fast_decision_tree.py:ExtremelyFastDecisionTreeClassifier._attempt_to_split", "src/skmultiflow/trees/extremely_fast_decision_tree.py:ExtremelyFastDecisionTreeClassifier._kill_subtree"]}
{"id": "C272", "title": "The extremely fast decision tree does not make splits that separate nothing", "statement": "A leaf is not split on an attribute that has had one value only.", "quantifier": "all histories", "why_tests_cant": "appears only once the bound falls below the tie threshold", "anchors": ["src/skmultiflow/trees/extremely_fast_decision_tree.py:ExtremelyFastDecisionTreeClassifier._attempt_to_split"]}
{"id": "C273", "title": "A split node is re-evaluated once per min_samples_reevaluate samples", "statement": "Between two re-evaluations of a split node at least min_samples_reevaluate of weight arrives at it.", "quantifier": "all histories", "why_tests_cant": "re-evaluation usually leaves the tree unchanged", "anchors": ["src/skmultiflow/trees/extremely_fast_decision_tree.py:ExtremelyFastDecisionTreeClassifier._process_nodes", "src/skmultiflow/trees/_nodes/efdtc_nodes.py:EFDTSplitNode.update_weight_seen_at_last_split_reevaluation"]}
{"id": "C274", "title": "Updating the test of a split node keeps values with their leaves", "statement": "When re-evaluation changes the test of a node on the same attribute, an instance keeps reaching the leaf that was trained on the instances with its value.", "quantifier": "all histories", "why_tests_cant": "needs new nominal values that sort before old ones", "anchors": ["src/skmultiflow/trees/extremely_fast_decision_tree.py:ExtremelyFastDecisionTreeClassifier._reevaluate_best_split"]}
{"id": "C275", "title": "The classes of the extremely fast decision tree are fixed by the first call that gives them", "statement": "Once a call has given classes, no later partial_fit or reset changes them.", "quantifier": "all histories", "why_tests_cant": "unbounded histories", "anchors": ["src/skmultiflow/trees/extremely_fast_decision_tree.py:ExtremelyFastDecisionTreeClassifier.partial_fit"]}
{"id": "C276", "title": "Rows of predict_proba of the extremely fast decision tree", "statement": "The row of an instance holds at the place of every label with a vote its share of the votes (the vote itself if they sum to zero) and zero elsewhere; without classes all rows are as long as the longest.", "quantifier": "all states and instances", "why_tests_cant": "labels may have gaps and votes may sum to zero", "anchors": ["src/skmultiflow/trees/hoeffding_tree.py:HoeffdingTreeClassifier.predict_proba", "src/skmultiflow/trees/extremely_fast_decision_tree.py:ExtremelyFastDecisionTreeClassifier"]}
{"id": "C277", "title": "A rule learner trains the rules that fire", "statement": "VeryFastDecisionRulesClassifier without a drift detector: with ordered_rules, a sample is learnt by the first rule whose conditions it meets and by no other; with unordered rules by every rule it meets; the default rule learns exactly the samples no rule fires on and is the only source of new rules, up to max_rules. A rule that learns a sample of weight w adds w to the weight of the label; it is revised only after grace_period more weight, and then only when the best suggestion is ahead by the Hoeffding bound or the bound is below tie_threshold.", "quantifier": "every configuration without a detector, state, sample and weight", "why_tests_cant": "Which rule learns depends on the whole rule list and on all counters.", "anchors": ["src/skmultiflow/rules/very_fast_decision_rules.py partial_fit, _partial_fit 451-537; _create_rule 539-621; _expand_rule 623-782", "src/skmultiflow/rules/base_rule.py learn, covers"]}
{"id": "C278", "title": "There are never more than max_rules rules", "statement": "REFUTED for the FOIL gain: one creation step adds a rule for every label, whatever max_rules is. For the other criteria the number of rules never exceeds max_rules, after any sequence of partial_fit and reset calls. An expansion adds no rule either (the branch that should is dead).", "quantifier": "every configuration and history; a witness run for FOIL gain", "why_tests_cant": "The bound must survive every history.", "anchors": ["src/skmultiflow/rules/very_fast_decision_rules.py _create_rule 539-621"]}
{"id": "C279", "title": "The suggestion of an attribute is its best candidate", "statement": "The suggestion an attribute makes is one of its candidate conditions, and no candidate of that attribute has a merit above it.", "quantifier": "every observer state, criterion and memory of the criterion", "why_tests_cant": "Every stored statistic must be covered.", "anchors": ["src/skmultiflow/rules/numeric_attribute_class_observer.py get_best_evaluated_split_suggestion 35-65", "src/skmultiflow/rules/nominal_attribute_class_observer.py get_best_evaluated_split_suggestion 40-56"]}
{"id": "C28", "title": "Classification evaluator: accuracy is the fraction of correct predictions", "statement": "accuracy_score() equals the (weighted) fraction of correct results and lies in [0,1], independent of the order of results; it is 0 before any result.", "quantifier": "every sequence of results, with every weights", "why_tests_cant": "all histories and weights", "anchors": ["src/skmultiflow/metrics/_classification_performance_evaluator.pyx:ClassificationPerformanceEvaluator.accuracy_score"]}
{"id": "C280", "title": "A rule that takes up a condition fires on fewer samples", "statement": "REFUTED in part: a rule that takes up a condition fires afterwards exactly on the samples it fired on that meet the condition, when the condition is not already implied by one of the same attribute and kind (<= keeps the smaller bound, > the greater one). But a second equality or inequality on the same attribute is silently dropped: the rule does not change although the condition won, and its observations are thrown away.", "quantifier": "every rule, condition and sample; a witness run", "why_tests_cant": "Requires all rules and all samples.", "anchors": ["src/skmultiflow/rules/base_rule.py", "src/skmultiflow/rules/very_fast_decision_rules.py _expand_rule 623-782", "src/skmultiflow/rules/base_predicate.py"]}
{"id": "C281", "title": "The half of the split that is kept is the purer one", "statement": "REFUTED (information gain): the side is remembered in the criterion across candidates. For the first candidate the purer half is chosen, and any later candidate keeps the side of an earlier one unless one of its halves has a lower entropy than every half seen before, so the less pure half can be kept.", "quantifier": "every candidate and memory; a witness run", "why_tests_cant": "The side depends on the candidates looked at before.", "anchors": ["src/skmultiflow/rules/info_gain_rule_criterion.py get_merit_of_split 15-26"]}
{"id": "C282", "title": "FOIL gain makes rules that gather the label", "statement": "REFUTED: the gain of a candidate is measured with the half that holds less of the label, so that it is never positive when both halves contain the label, and a half without the label is preferred over one with it. A rule made for a label can cover no sample of it, and rules for the labels behind the first one need not meet the bound.", "quantifier": "every distribution; witness runs", "why_tests_cant": "The sign must be known for all distributions.", "anchors": ["src/skmultiflow/rules/foil_gain_rule_criterion.py 1-60", "src/skmultiflow/rules/very_fast_decision_rules.py _create_rule 539-621"]}
{"id": "C283", "title": "A rule whose predictions go wrong is removed", "statement": "REFUTED: the detector of a rule is told 1 for a right prediction and 0 for a wrong one. With DDM a rule that is always wrong is never removed, and the first right prediction after a series of wrong ones removes it. The sample on which a rule is removed is learnt by no rule and not by the default rule, and with unordered rules the rule behind it is passed over.", "quantifier": "every rule, detector and sample; witness runs", "why_tests_cant": "Drift needs long histories; the wrong sign looks like noise in a test.", "anchors": ["src/skmultiflow/rules/very_fast_decision_rules.py _partial_fit 500-537; Rule.predict 309-330", "src/skmultiflow/rules/base_rule.py"]}
{"id": "C284", "title": "New rules come from a suggestion with information", "statement": "REFUTED: when there is a single suggestion it is taken without any test, even with a merit of -inf: a rule that covers everything is made and the default rule is emptied.", "quantifier": "a witness run", "why_tests_cant": "Needs the rare state of one candidate.", "anchors": ["src/skmultiflow/rules/very_fast_decision_rules.py _create_rule 539-621"]}
{"id": "C285", "title": "First hit: the first rule that fires predicts", "statement": "With ordered rules, or the first hit strategy, the votes for a sample are those of the first rule it meets, and of the default rule when it meets none: the label weights of the rule, or its Naive Bayes votes from nb_threshold weight on.", "quantifier": "every state and sample", "why_tests_cant": "All rule lists.", "anchors": ["src/skmultiflow/rules/very_fast_decision_rules.py get_votes_for_instance 352-370, first_hit 372-391"]}
{"id": "C286", "title": "Weighted max: the rule with the greatest vote predicts", "statement": "The votes are those of the rule that fires and has the greatest share for some label (the last such rule when tied), and the default rule's when no rule fires.", "quantifier": "every state and sample", "why_tests_cant": "All rule lists.", "anchors": ["src/skmultiflow/rules/very_fast_decision_rules.py weighted_max 393-420"]}
{"id": "C287", "title": "Weighted sum: the shares of the rules that fire are averaged", "statement": "REFUTED: the sum is normalised after every rule, so the first rules count less: of three rules the first two have weight 1/4 each and the last 1/2. The votes always sum to one.", "quantifier": "every state and sample", "why_tests_cant": "Order dependence shows from three rules on.", "anchors": ["src/skmultiflow/rules/very_fast_decision_rules.py weighted_sum 422-449"]}
{"id": "C288", "title": "predict_proba is the share of every label", "statement": "Entry c of row i is the share of label c in the votes for sample i. REFUTED: without classes the rows have the length of the greatest label voted for, so that they differ in length.", "quantifier": "every state and batch; a witness run", "why_tests_cant": "All states.", "anchors": ["src/skmultiflow/rules/very_fast_decision_rules.py predict_proba 806-837"]}
{"id": "C289", "title": "Disabling poor attributes leaves the predictions of the others", "statement": "REFUTED: the observer of a disabled attribute answers probability 0 and the Naive Bayes product of every label is 0. The labels a new rule inherits have vote 0 as soon as it has seen a sample.", "quantifier": "every rule and sample; witness runs", "why_tests_cant": "Needs an attribute judged poor.", "anchors": ["src/skmultiflow/rules/very_fast_decision_rules.py Rule.disable_attribute 291-301", "src/skmultiflow/bayes/utils.py do_naive_bayes_prediction"]}
{"id": "C29", "title": "Classification evaluator: all scores are in range and never raise", "statement": "For unit weights accuracy, precision, recall, F1, geometric mean lie in [0,1] and kappa, kappa_t, kappa_m are at most 1, for every history including the empty one; none of the calls divides by zero.", "quantifier": "every sequence of results, every class_value argument", "why_tests_cant": "degenerate distributions reachable only by particular histories", "anchors": ["src/skmultiflow/metrics/_classification_performance_evaluator.pyx:ClassificationPerformanceEvaluator.kappa_score", "src/skmultiflow/metrics/_classification_performance_evaluator.pyx:ClassificationPerformanceEvaluator.precision_score", "src/skmultiflow/metrics/_classification_performance_evaluator.pyx:ClassificationPerformanceEvaluator.recall_score", "src/skmultiflow/metrics/_classification_performance_evaluator.pyx:ClassificationPerformanceEvaluator.f1_score", "src/skmultiflow/metrics/_classification_performance_evaluator.pyx:ClassificationPerformanceEvaluator.geometric_mean_score"]}
{"id": "C290", "title": "Rule learning does not depend on how samples are batched", "statement": "Fitting two batches one after the other equals fitting their concatenation with the weights concatenated; samples of weight zero change nothing but the stored classes.", "quantifier": "every state and pair of batches", "why_tests_cant": "All ways of cutting a stream.", "anchors": ["src/skmultiflow/rules/very_fast_decision_rules.py partial_fit 451-498"]}
{"id": "C291", "title": "Rules vote only for labels that were learnt", "statement": "After any history, every label in the votes for any sample was given to partial_fit since the last reset, or is 0.", "quantifier": "every history and sample", "why_tests_cant": "All histories.", "anchors": ["src/skmultiflow/rules/very_fast_decision_rules.py get_votes_for_instance"]}
{"id": "C292", "title": "reset, descriptions", "statement": "reset gives the state of a new classifier. REFUTED: get_model_description raises ValueError before the first sample, and get_model_rules changes the labels stored in the rules.", "quantifier": "every state; witness states", "why_tests_cant": "All states.", "anchors": ["src/skmultiflow/rules/very_fast_decision_rules.py reset 854-866, get_model_rules 868-878, get_model_description 880-897"]}
{"id": "C293", "title": "Alternate trees of the adaptive tree stay single leaves", "statement": "HoeffdingAdaptiveTreeClassifier: after any sequence of partial_fit and reset calls, every alternate tree of every decision node is a single leaf: an alternate tree never grows, because the first split of one takes the place of the main subtree.", "quantifier": "every configuration, detector, draw sequence and history", "why_tests_cant": "The whole history decides what an alternate tree is.", "anchors": ["src/skmultiflow/trees/_nodes/hatc_nodes.py AdaSplitNode.learn_one 193-273"]}
{"id": "C294", "title": "The node counters of the adaptive tree are right", "statement": "Until the first alternate tree and without reset, the reported numbers of active leaves, inactive leaves and decision nodes are those of the tree. REFUTED afterwards: after a switch a tree of one leaf reports -1 active leaves and one decision node; after reset the decision nodes of the old tree are still counted.", "quantifier": "every history; witness runs with 64-bit floats and ADWIN", "why_tests_cant": "A counter can be wrong after any history.", "anchors": ["src/skmultiflow/trees/_nodes/hatc_nodes.py kill_tree_children 276-293, learn_one 216-252", "src/skmultiflow/trees/hoeffding_adaptive_tree.py reset 176-180"]}
{"id": "C295", "title": "A leaf of the adaptive tree can always be trained", "statement": "With stop_mem_management=False no leaf is ever inactive. REFUTED with stop_mem_management=True: a leaf whose numeric attributes are constant becomes inactive, and the next sample sorted to it raises TypeError in partial_fit and AttributeError in predict.", "quantifier": "every history; a witness run", "why_tests_cant": "Needs a rare combination of data and setting.", "anchors": ["src/skmultiflow/trees/_nodes/hatc_nodes.py AdaSplitNode.learn_one 254-273, filter_instance_to_leaves 296-315", "src/skmultiflow/trees/hoeffding_tree.py _attempt_to_split 576-633"]}
{"id": "C296", "title": "The adaptive tree answers with the leaf of the main tree", "statement": "Whatever was trained (stop_mem_management=False), the votes for an instance are those of the leaf of the main tree its tests lead to; alternate trees have no say. REFUTED for attribute values a multiway split has no branch for: there are no votes at all and the answer is class 0, where the Hoeffding tree answers with the classes seen at the split node.", "quantifier": "every history and instance; a witness run", "why_tests_cant": "All trees and instances.", "anchors": ["src/skmultiflow/trees/hoeffding_adaptive_tree.py _get_votes_for_instance 193-211", "src/skmultiflow/trees/_nodes/hatc_nodes.py filter_instance_to_leaves 296-315"]}
{"id": "C297", "title": "The error weight of a leaf does not change its answer", "statement": "The votes of a leaf are divided by the square of its error rate. Over the reals, predict_proba is nevertheless the row of the unweighted votes, after any history.", "quantifier": "every history and instance, real arithmetic", "why_tests_cant": "All states.", "anchors": ["src/skmultiflow/trees/_nodes/hatc_nodes.py AdaLearningNode.predict_one 119-139"]}
{"id": "C298", "title": "When an alternate tree replaces a node, and when it is dropped", "statement": "For a decision node of any reachable tree: if no change of its error is signalled and both error windows hold more than 300 values, the alternate tree replaces the node exactly when its error rate is smaller by more than sqrt(2 e (1-e) ln(40) (1/m + 1/n)), with e the error rate of the node, and is dropped exactly when it is larger by more than that; a signalled change starts a new alternate tree; otherwise it is kept and learns the sample.", "quantifier": "every reachable tree, node, sample and detector", "why_tests_cant": "The rule must hold at every node of every reachable tree.", "anchors": ["src/skmultiflow/trees/_nodes/hatc_nodes.py AdaSplitNode.learn_one 193-252"]}
{"id": "C299", "title": "An alternate tree replaces a node only when it is better", "statement": "REFUTED: an alternate tree that splits takes the place of the node without any comparison. In the run its error window holds 13 values and two samples later it is the whole tree; switch_alternate_trees_cnt stays 0 and the counters keep the nodes of the old tree. Children of branches the sample does not take are never changed.", "quantifier": "a witness run; every reachable node for the frame part", "why_tests_cant": "Needs a drift and a split of the alternate tree.", "anchors": ["src/skmultiflow/trees/_nodes/hatc_nodes.py AdaSplitNode.learn_one 216-273; AdaLearningNode.learn_one 113-117", "src/skmultiflow/trees/hoeffding_tree.py _attempt_to_split 614-633"]}
{"id": "C30", "title": "Windowed classification evaluator equals a fresh evaluator fed with the last window_size results", "statement": "With unit weights, after any sequence of results the windowed evaluator's cells, marginals, n_samples and accuracy are those of a fresh evaluator that received only the last window_size results.", "quantifier": "every window_size >= 1 and every sequence of results", "why_tests_cant": "eviction must undo exactly the right insertion for all histories", "anchors": ["src/skmultiflow/metrics/_classification_performance_evaluator.pyx:WindowClassificationPerformanceEvaluator.add_result", "src/skmultiflow/metrics/_confusion_matrix.pyx:ConfusionMatrix.update"]}
{"id": "C300", "title": "Bootstrap sampling draws the weight of a sample", "statement": "REFUTED: with bootstrap_sampling a sample of weight w should be learnt with weight w*k, k drawn from Poisson(1), and not at all when k = 0. It is learnt with weight w*max(k,1).", "quantifier": "every leaf, sample and draw; a witness run", "why_tests_cant": "Needs the draw to be controlled.", "anchors": ["src/skmultiflow/trees/_nodes/hatc_nodes.py AdaLearningNode.learn_one 87-117"]}
{"id": "C301", "title": "nb_threshold delays naive Bayes in the adaptive tree", "statement": "REFUTED: whatever nb_threshold is, every history leads to the same tree and the same votes.", "quantifier": "every pair of thresholds and history", "why_tests_cant": "A parameter without effect cannot be seen from examples.", "anchors": ["src/skmultiflow/trees/hoeffding_adaptive_tree.py __init__ 137-174", "src/skmultiflow/trees/_nodes/hatc_nodes.py AdaLearningNode.predict_one 119-139"]}
{"id": "C302", "title": "A Hoeffding tree votes only for labels it was taught", "statement": "HoeffdingTreeClassifier: after any sequence of partial_fit and reset calls, the votes for an instance name every label at most once, and only labels of samples with non-zero weight taught since the last reset, or 0 - also after splits, whose estimated distributions become the statistics of new leaves.", "quantifier": "every configuration, criterion, history, instance and number type", "why_tests_cant": "Every history and tree.", "anchors": ["src/skmultiflow/trees/hoeffding_tree.py partial_fit 249-353, _get_votes_for_instance 355-376, _attempt_to_split 548-633", "src/skmultiflow/trees/_attribute_observer/*"]}
{"id": "C303", "title": "Label combinations and class numbers are one-to-one", "statement": "For n >= 1 labels, the number given to a 0/1 vector of length n is below 2^n and predict's formatting turns it back into the same vector; every number below 2^n is the number of exactly the vector it is formatted to.", "quantifier": "every n and every vector", "why_tests_cant": "Exponentially many vectors.", "anchors": ["src/skmultiflow/trees/_nodes/lc_htc_nodes.py transform_label 5-7", "src/skmultiflow/trees/label_combination_hoeffding_tree.py predict 179-204"]}
{"id": "C304", "title": "The label combination tree is a Hoeffding tree over combination numbers", "statement": "LabelCombinationHoeffdingTreeClassifier taught 0/1 vectors of n_labels >= 1 entries grows the same tree, gives the same predict_proba and raises in the same cases as a HoeffdingTreeClassifier taught the numbers of the vectors, whatever classes says; predict gives the vector whose number that tree predicts.", "quantifier": "every configuration, history and batch of instances", "why_tests_cant": "A refinement over all histories.", "anchors": ["src/skmultiflow/trees/label_combination_hoeffding_tree.py partial_fit 158-177, predict 179-204, _new_learning_node 206-221", "src/skmultiflow/trees/_nodes/lc_htc_nodes.py learn_one"]}
{"id": "C305", "title": "Label combination predictions have n_labels zeros and ones", "statement": "When all taught vectors are 0/1 vectors of n_labels entries, every predicted vector has exactly n_labels entries, all 0 or 1; before training it is all zeros.", "quantifier": "every history and batch", "why_tests_cant": "All histories and batches.", "anchors": ["src/skmultiflow/trees/label_combination_hoeffding_tree.py predict 179-204"]}
{"id": "C306", "title": "Predicted labels and combinations were taught", "statement": "Hoeffding tree taught with weights that are not negative: no vote is negative, and (labels not negative) a predicted label was taught since the last reset or is 0. Label combination tree: a predicted combination was taught since the last reset or is all zeros.", "quantifier": "every configuration, history and batch, real arithmetic", "why_tests_cant": "All histories.", "anchors": ["src/skmultiflow/trees/hoeffding_tree.py predict 378-437", "src/skmultiflow/trees/label_combination_hoeffding_tree.py predict 179-204", "src/skmultiflow/trees/gaussian_estimator.py estimated_weight_lessthan_equalto_greaterthan_value 81-97"]}
{"id": "C307", "title": "The label combination tree checks its label vectors", "statement": "REFUTED: the constructor cannot be used with its default n_labels (ValueError); vectors with more or fewer than n_labels entries are accepted and predicted with another length ([0,1] taught with n_labels=1 is predicted as [1], [1,1] with n_labels=3 as [0,1,1], [1,0] with n_labels=1 as [1,0]); the vector [10] is taken for [1,0].", "quantifier": "witness runs, rational arithmetic", "why_tests_cant": "Invalid inputs the tests do not use.", "anchors": ["src/skmultiflow/trees/label_combination_hoeffding_tree.py n_labels 147-156, partial_fit 158-177", "src/skmultiflow/trees/_nodes/lc_htc_nodes.py transform_label 5-7"]}
{"id": "C308", "title": "How leaves predict does not change the tree that grows", "statement": "HoeffdingTreeClassifier: two trees built with the same arguments except leaf_prediction and nb_threshold and taught the same samples have the same splits, the same leaf statistics and the same counters, provided remove_poor_atts is off (or both use a Naive Bayes kind) and no memory estimate falls due; with 'mc' and 'nb' they also raise in the same cases.", "quantifier": "every pair of configurations, criterion, history and number type", "why_tests_cant": "Relates two runs over all histories.", "anchors": ["src/skmultiflow/trees/hoeffding_tree.py _new_learning_node 438-458, _attempt_to_split 548-633", "src/skmultiflow/trees/_nodes/htc_nodes.py learn_one, disable_attribute"]}
{"id": "C309", "title": "The leaf model of a regression tree does not change the tree that grows", "statement": "HoeffdingTreeRegressor: a tree with mean leaves and a tree with perceptron leaves, otherwise built alike and taught the same samples, have the same splits, leaf statistics and counters when no memory estimate falls due.", "quantifier": "every pair of configurations, history and number type", "why_tests_cant": "Relates two runs over all histories.", "anchors": ["src/skmultiflow/trees/hoeffding_tree_regressor.py _new_learning_node, _attempt_to_split", "src/skmultiflow/trees/_nodes/htr_nodes.py learn_one"]}
{"id": "C31", "title": "Classification evaluator: kappa is Cohen's kappa", "statement": "For unit weights and a chance agreement different from 1, kappa_score() equals (p0-pe)/(1-pe) with p0 the observed agreement and pe the agreement expected from the marginals, both recomputed from the list of results.", "quantifier": "every sequence of results", "why_tests_cant": "incremental marginals must equal recomputation for all histories", "anchors": ["src/skmultiflow/metrics/_classification_performance_evaluator.pyx:ClassificationPerformanceEvaluator.kappa_score"]}
{"id": "C310", "title": "Leaves of the forests' trees watch the attributes they chose", "statement": "ARFHoeffdingTreeClassifier and ARFHoeffdingTreeRegressor taught instances of n attributes: every leaf that can grow has observers for exactly the max_features distinct attributes it drew at its first sample (none before), never changes that draw while it learns, and every split tests one of the n attributes.", "quantifier": "every configuration, history, sequence of draws and number type", "why_tests_cant": "All histories and draws.", "anchors": ["src/skmultiflow/trees/arf_hoeffding_tree.py _new_learning_node 112-136", "src/skmultiflow/trees/_nodes/arf_htc_nodes.py update_attribute_observers 17-30", "src/skmultiflow/trees/arf_hoeffding_tree_regressor.py _new_learning_node", "src/skmultiflow/trees/_nodes/arf_htr_nodes.py RandomActiveLeafRegressor 10-17"]}
{"id": "C311", "title": "The forests' trees split only on attributes the leaf chose", "statement": "ARFHoeffdingTreeClassifier: when a sample makes the tree split, the new split tests one of the attributes the leaf had drawn.", "quantifier": "every configuration, history and sample", "why_tests_cant": "All histories.", "anchors": ["src/skmultiflow/trees/arf_hoeffding_tree.py _new_learning_node 112-136", "src/skmultiflow/trees/hoeffding_tree.py _attempt_to_split 548-633"]}
{"id": "C312", "title": "Attributes the classifier's leaves do not choose do not matter", "statement": "ARFHoeffdingTreeClassifier: two histories with the same labels, weights and draws whose instances agree on every drawn attribute give the same tree, or raise alike; the tree tests only drawn attributes and votes alike for instances that agree on them.", "quantifier": "every pair of such histories", "why_tests_cant": "Relates two runs over all histories.", "anchors": ["src/skmultiflow/trees/_nodes/arf_htc_nodes.py update_attribute_observers 17-30", "src/skmultiflow/bayes/naive_bayes.py do_naive_bayes_prediction"]}
{"id": "C313", "title": "A forest tree that draws every attribute is a Hoeffding tree", "statement": "ARFHoeffdingTreeClassifier with max_features equal to the number of attributes, drawing them in order, raises in the same cases as HoeffdingTreeClassifier with the same settings, has the same tests, statistics, observers and counters, and gives the same votes - with remove_poor_atts off or majority class leaves and no memory estimate due.", "quantifier": "every configuration and history", "why_tests_cant": "Relates two programs over all histories.", "anchors": ["src/skmultiflow/trees/arf_hoeffding_tree.py class ARFHoeffdingTreeClassifier", "src/skmultiflow/trees/_nodes/arf_htc_nodes.py RandomActiveLeafClass"]}
{"id": "C314", "title": "Drawing more attributes than there are is refused", "statement": "A forest tree, classifier or regressor, whose max_features is negative or above the number of attributes raises ValueError at its first sample of non-zero weight.", "quantifier": "every configuration and sample", "why_tests_cant": "All configurations.", "anchors": ["src/skmultiflow/trees/_nodes/arf_htc_nodes.py _sample_features 32-35", "src/skmultiflow/trees/_nodes/arf_htr_nodes.py RandomActiveLeafRegressor 10-17"]}
{"id": "C315", "title": "The counters of a forest tree are the numbers of its nodes", "statement": "ARFHoeffdingTreeClassifier: the measured numbers of split, active and inactive nodes are the numbers of such nodes in the tree, and partial_fit never removes splits, or adds one once growth is off.", "quantifier": "every configuration and history", "why_tests_cant": "All histories.", "anchors": ["src/skmultiflow/trees/arf_hoeffding_tree.py class ARFHoeffdingTreeClassifier", "src/skmultiflow/trees/hoeffding_tree.py get_model_measurements"]}
{"id": "C316", "title": "Disabling poor attributes leaves Naive Bayes predictions alone", "statement": "REFUTED for ARFHoeffdingTreeClassifier: its Naive Bayes leaves disable observers when remove_poor_atts is on, which HoeffdingTreeClassifier's never do; after one attribute is disabled every vote is 0 and class 1 samples are predicted as 0.", "quantifier": "witness run, 64-bit floats", "why_tests_cant": "Needs a configuration the tests do not use.", "anchors": ["src/skmultiflow/trees/_nodes/arf_htc_nodes.py RandomActiveLearningNodeNB 64-88", "src/skmultiflow/trees/_nodes/htc_nodes.py disable_attribute"]}
{"id": "C317", "title": "Attributes the regressor's leaves do not choose do not matter", "statement": "ARFHoeffdingTreeRegressor with mean leaves: two histories with the same targets, weights and draws whose instances agree on every drawn attribute give the same tree, or raise alike; the tree tests only drawn attributes and predicts alike for instances that agree on them.", "quantifier": "every pair of such histories", "why_tests_cant": "Relates two runs over all histories.", "anchors": ["src/skmultiflow/trees/_nodes/arf_htr_nodes.py RandomActiveLeafRegressor 10-17", "src/skmultiflow/trees/hoeffding_tree_regressor.py predict 404-432"]}
{"id": "C318", "title": "A forest regression tree that draws every attribute is a Hoeffding tree regressor", "statement": "ARFHoeffdingTreeRegressor with max_features equal to the number of attributes, drawing them in order, raises in the same cases as HoeffdingTreeRegressor with the same settings, has the same tests, statistics, observers, perceptrons and counters, and predicts the same values when no memory estimate falls due.", "quantifier": "every configuration and history", "why_tests_cant": "Relates two programs over all histories.", "anchors": ["src/skmultiflow/trees/arf_hoeffding_tree_regressor.py class ARFHoeffdingTreeRegressor", "src/skmultiflow/trees/_nodes/arf_htr_nodes.py RandomActiveLeafRegressor"]}
{"id": "C319", "title": "A new leaf waits for a grace period of its own", "statement": "HoeffdingTreeClassifier and HoeffdingTreeRegressor: a leaf that has seen nothing yet - a new root, a child of a split, or a leaf activated again - and then learns any samples is tried for a split exactly when the weight it gained since reaches grace_period; the weight it was created with does not count.", "quantifier": "every configuration, history of instances with at least one attribute, leaf and further samples, every number type", "why_tests_cant": "All histories; tests with one split do not separate the two counts.", "anchors": ["src/skmultiflow/trees/_nodes/base.py ActiveLeaf last_split_attempt_at", "src/skmultiflow/trees/_nodes/htc_nodes.py ActiveLearningNodeMC", "src/skmultiflow/trees/_nodes/htr_nodes.py", "src/skmultiflow/trees/hoeffding_tree.py _partial_fit"]}
{"id": "C32", "title": "F1 of a requested class is that class's F1", "statement": "f1_score(class_value=c) is the harmonic mean of precision_score(c) and recall_score(c).", "quantifier": "every binary or multiclass history and every class c", "why_tests_cant": "every class argument", "anchors": ["src/skmultiflow/metrics/_classification_performance_evaluator.pyx:ClassificationPerformanceEvaluator.f1_score"]}
{"id": "C320", "title": "The measurements of a multi-target tree are those of its tree", "statement": "iSOUPTreeRegressor and StackedSingleTargetHoeffdingTreeRegressor: after any history of partial_fit calls and resets the counters of get_model_measurements are the numbers of split nodes, active and inactive leaves, nodes and the depth of the tree.", "quantifier": "every configuration, kind of leaf (mean, perceptron, adaptive; iSOUP and stacked), number of targets, history and number type", "why_tests_cant": "All histories with splits, memory limits and resets.", "anchors": ["src/skmultiflow/trees/isoup_tree.py iSOUPTreeRegressor", "src/skmultiflow/trees/stacked_single_target_hoeffding_tree_regressor.py StackedSingleTargetHoeffdingTreeRegressor", "src/skmultiflow/trees/hoeffding_tree.py get_model_measurements"]}
{"id": "C321", "title": "A sample changes a multi-target tree only where it arrives", "statement": "After partial_fit with one sample, every instance that does not reach the sample's leaf reaches the same node as before with the same statistics; the node the sample reaches gains its weight, its weighted targets and their weighted squares, whether it splits or not.", "quantifier": "every configuration, kind of leaf (mean, perceptron, adaptive; iSOUP and stacked), number of targets, history and number type, reached state, sample and other instance", "why_tests_cant": "All trees and all pairs of instances.", "anchors": ["src/skmultiflow/trees/isoup_tree.py _partial_fit 333-409", "src/skmultiflow/trees/_nodes/htr_nodes.py update_stats"]}
{"id": "C322", "title": "Between resets a multi-target tree only grows", "statement": "A call never removes a split node, one sample makes at most one split, without growth the structure stays, and an instance's new path extends its old one.", "quantifier": "every configuration, kind of leaf (mean, perceptron, adaptive; iSOUP and stacked), number of targets, history and number type", "why_tests_cant": "All histories.", "anchors": ["src/skmultiflow/trees/isoup_tree.py _partial_fit 333-409", "src/skmultiflow/trees/isoup_tree.py _attempt_to_split"]}
{"id": "C323", "title": "The split rule of multi-target trees", "statement": "A sample splits its leaf exactly when growth is allowed, grace_period of weight has come since the last attempt, and the best suggestion by intra-cluster variance reduction is the only one, or its merit is positive and either the ratio of the second merit to it is below 1 minus the Hoeffding bound or the bound is below tie_threshold. The split carries the leaf's statistics; the branches start from the suggestion's distributions, with the leaf's weights.", "quantifier": "every configuration, kind of leaf (mean, perceptron, adaptive; iSOUP and stacked), number of targets, history and number type, reached state and sample with defined merits", "why_tests_cant": "All states.", "anchors": ["src/skmultiflow/trees/isoup_tree.py _attempt_to_split", "src/skmultiflow/trees/_split_criterion/intra_cluster_variance_reduction_split_criterion.py"]}
{"id": "C324", "title": "Multi-target predictions have a row per instance and a column per target", "statement": "Once trained, predict answers each row on its own with one value per target. REFUTED before training: each row is a single zero, whatever the number of targets.", "quantifier": "every configuration, kind of leaf (mean, perceptron, adaptive; iSOUP and stacked), number of targets, history and number type, batch of rows", "why_tests_cant": "All batches and histories.", "anchors": ["src/skmultiflow/trees/isoup_tree.py predict 411-442"]}
{"id": "C325", "title": "Which multi-target tree grows does not depend on the leaf predictions", "statement": "Trees with leaf_prediction 'mean', 'perceptron' or 'adaptive', iSOUP or stacked single-target, taught the same samples without memory estimates have the same tests, statistics, observers, counters and sums.", "quantifier": "every pair of kinds of leaves, configuration and history that both trees learn without an exception", "why_tests_cant": "Relates two programs over all histories.", "anchors": ["src/skmultiflow/trees/isoup_tree.py _new_learning_node", "src/skmultiflow/trees/stacked_single_target_hoeffding_tree_regressor.py _new_learning_node", "src/skmultiflow/trees/_nodes/isouptr_nodes.py learn_one", "src/skmultiflow/trees/_nodes/sst_htr_nodes.py learn_one"]}
{"id": "C326", "title": "Adaptive multi-target leaves answer with one of their predictors", "statement": "With 'adaptive', the iSOUP tree answers each target with the value of the 'mean' tree or of the 'perceptron' tree that learnt the same samples; the stacked tree adds its second layer's value; both raise in exactly the same cases as the perceptron trees.", "quantifier": "every configuration, history and instance without memory estimates, every number type", "why_tests_cant": "Relates three or four programs over all histories.", "anchors": ["src/skmultiflow/trees/_nodes/isouptr_nodes.py LearningNodeAdaptiveMultiTarget 98-158", "src/skmultiflow/trees/_nodes/sst_htr_nodes.py SSTLearningNodeAdaptive"]}
{"id": "C327", "title": "The order of the targets does not matter to iSOUP trees", "statement": "Training with the targets of every sample in another order - and the initial weights drawn with them - raises alike, gives a tree with the same tests at the same places, and predictions in the other order.", "quantifier": "every permutation of the targets, history, batch of rows and kind of leaf of iSOUPTreeRegressor; over the reals", "why_tests_cant": "All permutations and histories; the merit is a mean over targets.", "anchors": ["src/skmultiflow/trees/isoup_tree.py iSOUPTreeRegressor", "src/skmultiflow/trees/_split_criterion/intra_cluster_variance_reduction_split_criterion.py get_merit_of_split"]}
{"id": "C328", "title": "Multi-target trees answer within the range of what they saw", "statement": "With 'mean' leaves and non-negative weights every value is within the range of that target since the last reset. With 'perceptron' leaves the weights of every target have norm one, the sums behind the standardisation are those of all samples, and an instance within k >= 1 standard deviations in every attribute is answered within k standard deviations of the mean of the target, or within its range.", "quantifier": "every history, instance, interval and k; over the reals", "why_tests_cant": "Split statistics are differences of sums in search trees; weights are copied between leaves.", "anchors": ["src/skmultiflow/trees/isoup_tree.py predict 411-442", "src/skmultiflow/trees/isoup_tree.py normalize_sample 226-257", "src/skmultiflow/trees/_nodes/isouptr_nodes.py _normalize_perceptron_weights 90-95"]}
{"id": "C329", "title": "reset gives back a new multi-target tree", "statement": "With leaf_prediction='mean' a tree trained again after reset() has the tree and the answers a new one would have. REFUTED otherwise: after reset, and until the next partial_fit, predict raises AttributeError although the tree had been trained, and the sums behind the standardisation stay.", "quantifier": "every history before and after, every batch", "why_tests_cant": "All histories.", "anchors": ["src/skmultiflow/trees/hoeffding_tree.py reset 235-247", "src/skmultiflow/trees/isoup_tree.py predict 411-442"]}
{"id": "C33", "title": "Evaluator reset returns to the constructed state", "statement": "After reset() an evaluator behaves exactly like a newly constructed one with the same parameters.", "quantifier": "every state, every evaluator class", "why_tests_cant": "all pasts", "anchors": ["src/skmultiflow/metrics/_classification_performance_evaluator.pyx:ClassificationPerformanceEvaluator.reset", "src/skmultiflow/metrics/_classification_performance_evaluator.pyx:WindowClassificationPerformanceEvaluator.reset", "src/skmultiflow/metrics/_classification_performance_evaluator.pyx:MultiLabelClassificationPerformanceEvaluator.reset"]}
{"id": "C330", "title": "Alternate trees of the adaptive regression tree never grow", "statement": "HoeffdingAdaptiveTreeRegressor: whatever was trained, every alternate tree is a single leaf.", "quantifier": "every configuration, drift detector, random generator, history of partial_fit calls and resets, and number type", "why_tests_cant": "All histories and detectors.", "anchors": ["src/skmultiflow/trees/_nodes/hatr_nodes.py AdaSplitNodeRegressor.learn_one 37-112"]}
{"id": "C331", "title": "An adaptive regression tree answers with one leaf of its main tree", "statement": "An instance is answered by the one leaf of the main tree it is sorted to, with the mean of its targets or its perceptron; alternate trees have no say; at a test without a branch for the instance the mean of the split node is the answer.", "quantifier": "every configuration, drift detector, random generator, history of partial_fit calls and resets, and number type, and instance", "why_tests_cant": "All trees and instances.", "anchors": ["src/skmultiflow/trees/hoeffding_tree_regressor.py predict 404-432", "src/skmultiflow/trees/_nodes/hatr_nodes.py predict_one 226-232"]}
{"id": "C332", "title": "What becomes of an alternate tree of the adaptive regression tree", "statement": "At a sample with a branch the alternate tree replaces its node exactly if no change is signalled, both error windows hold more than 300 values and its error is smaller by more than the bound sqrt(2 e (1-e) ln(40) (1/n1 + 1/n2)); it is dropped exactly if its error is larger by more than the bound; a signalled change replaces it by a new one. Where the error is above 1 the bound is 0.", "quantifier": "every configuration, drift detector, random generator, history of partial_fit calls and resets, and number type, reached tree, split node and sample", "why_tests_cant": "All trees, detectors and samples.", "anchors": ["src/skmultiflow/trees/_nodes/hatr_nodes.py AdaSplitNodeRegressor.learn_one 37-98"]}
{"id": "C333", "title": "A sample leaves the other branches of an adaptive regression tree alone", "statement": "Learning a sample at a split node keeps its statistics and the subtrees of all branches other than the sample's.", "quantifier": "every configuration, drift detector, random generator, history of partial_fit calls and resets, and number type, reached tree, split node and sample", "why_tests_cant": "All trees and samples.", "anchors": ["src/skmultiflow/trees/_nodes/hatr_nodes.py AdaSplitNodeRegressor.learn_one 37-112"]}
{"id": "C334", "title": "Bootstrap weights of the adaptive regression tree", "statement": "With bootstrap sampling a leaf learns a sample of weight w with the weight w * max(k, 1), k the Poisson draw, and with w otherwise.", "quantifier": "every configuration, drift detector, random generator, history of partial_fit calls and resets, and number type, leaf and sample", "why_tests_cant": "All draws and weights.", "anchors": ["src/skmultiflow/trees/_nodes/hatr_nodes.py AdaActiveLearningNodeRegressor.learn_one 194-218"]}
{"id": "C335", "title": "What the detectors of the adaptive regression tree are told", "statement": "The detector of every leaf, alternate trees included, is told one value per sample: 0 at the first error of the leaf, then the standard score of the absolute error among the leaf's errors so far, scaled from [-3, 3] to [0, 1]; the leaf keeps number, mean and sum of squared deviations of its errors. The values lie in [0, 1] for the first ten samples. REFUTED later: ten equal errors and a larger one give a value above 1.", "quantifier": "every configuration, detector, generator and history; values over the reals", "why_tests_cant": "All histories of all leaves.", "anchors": ["src/skmultiflow/trees/_nodes/hatr_nodes.py get_normalized_error 242-270", "src/skmultiflow/trees/_nodes/hatr_nodes.py AdaActiveLearningNodeRegressor.learn_one 194-218"]}
{"id": "C336", "title": "leaf_prediction='mean' does without perceptrons", "statement": "REFUTED: the adaptive regression tree trains perceptrons whatever leaf_prediction says, so that with one numeric attribute and leaf_prediction='mean' the second sample raises IndexError; HoeffdingTreeRegressor with the same options learns and predicts.", "quantifier": "a stream with one numeric attribute", "why_tests_cant": "The failure needs a particular shape of the data.", "anchors": ["src/skmultiflow/trees/_nodes/hatr_nodes.py AdaActiveLearningNodeRegressor 147-224", "src/skmultiflow/trees/hoeffding_adaptive_tree_regressor.py _new_learning_node 162-179"]}
{"id": "C337", "title": "reset gives back a new adaptive regression tree", "statement": "REFUTED: reset keeps the sums behind the standardisation, so that a tree with perceptron leaves, reset and taught the same samples, predicts something else than a new one.", "quantifier": "histories with a reset", "why_tests_cant": "Needs two histories.", "anchors": ["src/skmultiflow/trees/hoeffding_adaptive_tree_regressor.py HoeffdingAdaptiveTreeRegressor", "src/skmultiflow/trees/hoeffding_tree.py reset 235-247"]}
{"id": "C338", "title": "Without drift the adaptive regression tree is the regression tree", "statement": "As long as no alternate tree was made and no leaf lost, without bootstrap sampling, with perceptron leaves, samples lighter than grace_period, no memory estimate due and memory that suffices: HoeffdingTreeRegressor learns the same calls without an exception, reports the same numbers of nodes and gives the same predictions.", "quantifier": "every detector, configuration, list of partial_fit calls and batch of instances; every number type", "why_tests_cant": "Relates two programs on all histories.", "anchors": ["src/skmultiflow/trees/hoeffding_adaptive_tree_regressor.py _partial_fit 181-212", "src/skmultiflow/trees/hoeffding_tree_regressor.py _partial_fit 335-402", "src/skmultiflow/trees/_nodes/hatr_nodes.py AdaActiveLearningNodeRegressor"]}
{"id": "C339", "title": "Mean answers of the adaptive regression tree stay within the targets", "statement": "HoeffdingAdaptiveTreeRegressor with leaf_prediction='mean' and non-negative weights: every answer lies between the smallest and the largest target taught since the last reset, whatever splits, drifts, alternate trees and bootstrap weights there were, or it is 0, the answer of a leaf without weight.", "quantifier": "every configuration, drift detector, random generator, history of partial_fit calls and resets and batch of instances, over the reals", "why_tests_cant": "All histories and detectors.", "anchors": ["src/skmultiflow/trees/_nodes/hatr_nodes.py AdaActiveLearningNodeRegressor.predict_one 226-232", "src/skmultiflow/trees/_nodes/hatr_nodes.py AdaSplitNodeRegressor.learn_one 37-112", "src/skmultiflow/trees/hoeffding_tree_regressor.py predict 398-426"]}
{"id": "C34", "title": "Multi-label evaluator: Hamming score is the fraction of correctly predicted labels", "statement": "hamming_score() equals the number of (sample,label) pairs predicted correctly divided by the number of pairs, and hamming_loss is its complement.", "quantifier": "every sequence of binary label vectors", "why_tests_cant": "all histories", "anchors": ["src/skmultiflow/metrics/_classification_performance_evaluator.pyx:MultiLabelClassificationPerformanceEvaluator.hamming_score"]}
{"id": "C340", "title": "Adaptive leaves of iSOUP trees choose the predictor with the smaller faded error", "statement": "iSOUPTreeRegressor with leaf_prediction='adaptive', more than one sample seen and weights in the leaf: for each target the leaf compares the sums of 0.95^age times the absolute standardised error of its mean and of its perceptron over all its passes of learning since it was created (int(weight) passes per sample); the perceptron answers if its sum is not larger, the mean otherwise, also when a sum is not a number.", "quantifier": "every configuration, history of partial_fit calls and resets, reached tree, leaf, instance and target, over the reals", "why_tests_cant": "All histories.", "anchors": ["src/skmultiflow/trees/_nodes/isouptr_nodes.py LearningNodeAdaptiveMultiTarget 98-158"]}
{"id": "C341", "title": "Adaptive leaves of stacked single-target trees choose among three predictors by faded error", "statement": "StackedSingleTargetHoeffdingTreeRegressor with leaf_prediction='adaptive', more than one sample seen and weights in the leaf: the mean answers if neither perceptron has a smaller faded error, unless all three are equal; the perceptron if its faded error is the smallest or all are equal; the stacked perceptron if its faded error is smaller than the mean's and not larger than the perceptron's.", "quantifier": "every configuration, history of partial_fit calls and resets, reached tree, leaf, instance and target, over the reals", "why_tests_cant": "All histories and ties.", "anchors": ["src/skmultiflow/trees/_nodes/sst_htr_nodes.py SSTLearningNodeAdaptive 122-215"]}
{"id": "C342", "title": "The rules of a Hoeffding tree split the instances as its leaves do", "statement": "After any history, the rules answered by HoeffdingTreeClassifier.get_model_rules() are disjoint and follow the tree: an instance sorted to a leaf is covered (Rule.covers_instance) by exactly one rule, which carries the class distribution of that leaf and a label of greatest weight in it; an instance that stops at a multiway split because its value was never seen there is covered by no rule. An instance with a NaN in a tested numeric attribute is sorted to a leaf but covered by no rule.", "quantifier": "every configuration, history of partial_fit calls and resets on rows of one width, reached tree and instance of that width, over the reals", "why_tests_cant": "Trees grow without bound through splits of three kinds and late branches; each combination of predicates has to match the routing.", "anchors": ["src/skmultiflow/trees/hoeffding_tree.py HoeffdingTreeClassifier.get_model_rules", "src/skmultiflow/rules/base_rule.py Rule.covers_instance", "src/skmultiflow/trees/_attribute_test/nominal_attribute_multiway_test.py"]}
{"id": "C343", "title": "get_model_rules answers one rule per leaf, or fails on a leaf without statistics", "statement": "HoeffdingTreeClassifier.get_model_rules() answers as many rules as the tree has active and inactive leaves if every leaf has a class distribution that is not empty; otherwise it raises ValueError, and AttributeError on a tree that has not learned. Trees with an empty leaf are reached: no_preprune=True and binary_split=True on a constant nominal attribute.", "quantifier": "every configuration, history of partial_fit calls and resets on rows of one width, reached tree, over the reals", "why_tests_cant": "Whether a leaf is empty depends on the whole history of splits.", "anchors": ["src/skmultiflow/trees/hoeffding_tree.py HoeffdingTreeClassifier.get_model_rules"]}
{"id": "C344", "title": "The class of a rule is the predicted class", "statement": "HoeffdingTreeClassifier with leaf_prediction='mc', weights and labels not negative: for an instance covered by a rule whose class has a positive weight, predict answers a label of the same weight in the rule's class distribution, and the rule's class itself if no other label ties with it.", "quantifier": "every configuration, history of partial_fit calls and resets on rows of one width, reached tree and instance of that width, over the reals", "why_tests_cant": "Quantifies over all trees, instances and tie patterns.", "anchors": ["src/skmultiflow/trees/hoeffding_tree.py HoeffdingTreeClassifier.get_model_rules", "src/skmultiflow/trees/hoeffding_tree.py HoeffdingTreeClassifier.predict"]}
{"id": "C345", "title": "Which metrics an evaluator accepts for one target", "statement": "An evaluator given a stream with one target and no data points takes the metrics for a classification exactly if all are classification metrics or true_vs_predicted, running_time, model_size and at least one is of classification alone; for a regression exactly if all are mean_square_error, mean_absolute_error or one of those three and at least one is an error; it raises ValueError otherwise.", "quantifier": "every list of metrics, known or not, with repetitions", "why_tests_cant": "All lists of metrics.", "anchors": ["src/skmultiflow/evaluation/base_evaluator.py _check_configuration 170-239", "src/skmultiflow/utils/constants.py"]}
{"id": "C346", "title": "Which metrics an evaluator accepts for several targets", "statement": "With more than one target the metrics are taken for a multi-label classification exactly if all are hamming_score, hamming_loss, exact_match, j_index, running_time or model_size (also if there is none of the first four, whatever the targets are); for a multi-target regression exactly if all are average errors or costs and one is an average error; ValueError otherwise.", "quantifier": "every list of metrics and number of targets above one", "why_tests_cant": "All lists of metrics.", "anchors": ["src/skmultiflow/evaluation/base_evaluator.py _check_configuration 170-239", "src/skmultiflow/utils/constants.py"]}
{"id": "C347", "title": "An evaluator reports the metrics asked for, costs last", "statement": "The metrics of an accepted configuration are the ones asked for, each as often; running_time and model_size come last; both groups keep their order.", "quantifier": "every configuration", "why_tests_cant": "All lists of metrics.", "anchors": ["src/skmultiflow/evaluation/base_evaluator.py _check_configuration 187-198"]}
{"id": "C348", "title": "Every reported line matches the header", "statement": "In an accepted configuration without data_points_for_classification every report succeeds (data points need two features and a model), and the line written has one value per column of the header, in the same order, each the value that its column names. REFUTED with data_points_for_classification: mean_square_error is accepted and every report raises AttributeError; on a stream of one feature every report raises IndexError.", "quantifier": "every list of metrics, number of models, features and targets, and measured values", "why_tests_cant": "All combinations of metrics and models; header and line are written by separate code.", "anchors": ["src/skmultiflow/evaluation/base_evaluator.py _update_metrics 320-535", "src/skmultiflow/evaluation/base_evaluator.py _init_file 559-602", "src/skmultiflow/evaluation/base_evaluator.py _update_file 604-649"]}
{"id": "C349", "title": "The output file holds the header and a first part of the lines", "statement": "At every moment between the reports of an evaluation the output file holds its header and its first lines in order; the lines not yet in it are at most one or fit the buffer; when the evaluation has ended it holds all lines, and none of an earlier evaluation. REFUTED if an earlier evaluation was left by an exception before its flush, as in the last loop of a delayed evaluation: its lines appear in the next file.", "quantifier": "every sequence of evaluations, lines, sizes of lines and buffer size", "why_tests_cant": "All crash points and sequences of lines.", "anchors": ["src/skmultiflow/evaluation/base_evaluator.py _init_file 543-602", "src/skmultiflow/evaluation/base_evaluator.py _update_file 643-649", "src/skmultiflow/evaluation/base_evaluator.py _flush_file_buffer 651-656", "src/skmultiflow/evaluation/evaluate_prequential_delayed.py 471-486"]}
{"id": "C35", "title": "Multi-label evaluator: exact match and Jaccard index are exact averages in [0,1]", "statement": "exact_match_score() is the fraction of samples whose label vectors agree everywhere and jaccard_score() the mean of per-sample Jaccard indices; both lie in [0,1].", "quantifier": "every sequence of binary label vectors", "why_tests_cant": "all histories, including all-zero vectors", "anchors": ["src/skmultiflow/metrics/_classification_performance_evaluator.pyx:MultiLabelClassificationPerformanceEvaluator.add_result"]}
{"id": "C350", "title": "Constructing an evaluator leaves the list of metrics alone", "statement": "REFUTED: with data_points_for_classification EvaluatePrequential and EvaluatePrequentialDelayed append to the caller's list, so that a second evaluator built from the same list has other metrics than the first.", "quantifier": "every list of metrics", "why_tests_cant": "Aliasing between calls.", "anchors": ["src/skmultiflow/evaluation/evaluate_prequential.py EvaluatePrequential.__init__ 211-222", "src/skmultiflow/evaluation/evaluate_prequential_delayed.py EvaluatePrequentialDelayed.__init__"]}
{"id": "C351", "title": "The default reset calls the constructor once, or not at all", "statement": "reset() as inherited from BaseSKMObject (the streams, evaluators, NaiveBayes, SAMKNNClassifier and others), if the class name does not occur in the parameters' text: if no parameter shows an object, inf or nan, the constructor is called exactly once, with every parameter, whose strings have lost their blanks and whose lists of more than 30 elements end in an Ellipsis after the thirtieth; otherwise there is a NameError and the constructor is not called, so that the object is as before.", "quantifier": "every class name, list of at most 30 parameters (numbers, constants, names, strings that need no escapes, nested lists and objects) and way of breaking the text into lines, texts of at most 700 characters", "why_tests_cant": "Printing, line breaks, replacement and parsing of texts of any parameters.", "anchors": ["src/skmultiflow/core/base.py BaseSKMObject.reset 344-356", "src/skmultiflow/core/base.py __repr__ 245-291", "src/skmultiflow/utils/_pprint.py"]}
{"id": "C352", "title": "When the default reset passes the same parameters", "statement": "Under the conditions of C351 the default reset calls the constructor with the very parameters of the object exactly if all are numbers, None, True, False, strings without blanks and lists of at most 30 of these.", "quantifier": "every class name, list of at most 30 parameters (numbers, constants, names, strings that need no escapes, nested lists and objects) and way of breaking the text into lines, texts of at most 700 characters", "why_tests_cant": "As for C351.", "anchors": ["src/skmultiflow/core/base.py BaseSKMObject.reset 344-356"]}
{"id": "C353", "title": "reset restores every object as constructed", "statement": "REFUTED for the default reset: FileStream('my data.csv') is reset to the file mydata.csv, FileStream('FileStream.csv') to self.__init__.csv; a 31st categorical feature becomes an Ellipsis; a default EvaluatePrequential (max_time is inf) and a default ConceptDriftStream (its streams are objects) raise NameError.", "quantifier": "objects of the library", "why_tests_cant": "Depends on the text of parameter values.", "anchors": ["src/skmultiflow/core/base.py BaseSKMObject.reset 344-356", "src/skmultiflow/data/file_stream.py FileStream", "src/skmultiflow/evaluation/evaluate_prequential.py EvaluatePrequential", "src/skmultiflow/data/concept_drift_stream.py ConceptDriftStream"]}
{"id": "C354", "title": "Areas under the normal curve are probabilities", "statement": "In real arithmetic normal_probability(a) is between 0 and 1 for every a, at most one half for a <= 0 and at least one half for a >= 0, exactly one half at 0; normal_probability(a) and normal_probability(-a) add up to 1; from 38 on the value is exactly 1 and up to -38 exactly 0.", "quantifier": "every real argument", "why_tests_cant": "Rational approximations with different coefficients on four ranges: a check at points says nothing between them.", "anchors": ["src/skmultiflow/utils/statistics.py normal_probability 7-32", "src/skmultiflow/utils/statistics.py error_function 35-64", "src/skmultiflow/utils/statistics.py error_function_complemented 67-149"]}
{"id": "C355", "title": "Observers and trees with the library's normal distribution", "statement": "With the normal distribution function of the library, the weights that a Gaussian observer assigns to the two sides of a cut point are not negative and add up to the weight of the class (C86), Hoeffding trees vote no negative weight and predict only labels taught or 0 (C306), and label combination trees only combinations taught or none (C306), for every history.", "quantifier": "every history of partial_fit and reset calls with weights that are not negative", "why_tests_cant": "Every history and every real distribution argument.", "anchors": ["src/skmultiflow/utils/statistics.py normal_probability 7-32", "src/skmultiflow/trees/_attribute_observer/numeric_attribute_class_observer_gaussian.py NumericAttributeClassObserverGaussian", "src/skmultiflow/trees/hoeffding_tree.py HoeffdingTreeClassifier"]}
{"id": "C356", "title": "What EFDT answers where it has no branch", "statement": "An extremely fast decision tree answers an instance for which its root has no branch, and every instance while it is a single majority class or inactive leaf, with the weight of every class taught since the last reset.", "quantifier": "every history of partial_fit and reset calls and instance", "why_tests_cant": "Every history of splits, kills and re-evaluations.", "anchors": ["src/skmultiflow/trees/extremely_fast_decision_tree.py ExtremelyFastDecisionTreeClassifier", "src/skmultiflow/trees/hoeffding_tree.py get_votes_for_instance 355-380"]}
{"id": "C357", "title": "The bound that a decision rule is judged by", "statement": "VFDR compares the two best suggestions of a rule with sqrt(R^2 ln(1/delta)/(2n)), where n is the weight the rule has seen, delta the configured confidence and R the logarithm to base 2 of the number of its classes, of at least 2 classes except for the FOIL criterion.", "quantifier": "every class distribution of a rule and configuration", "why_tests_cant": "All distributions and criteria.", "anchors": ["src/skmultiflow/rules/very_fast_decision_rules.py compute_hoeffding_bound 899-936", "src/skmultiflow/rules/info_gain_rule_criterion.py get_range_of_merit 28-31"]}
{"id": "C358", "title": "Object sizes count every held object once", "statement": "calculate_object_size ends on every object that holds finitely many objects, whatever they share and whatever cycles they form, and answers the sum of the own sizes of the objects it holds (keys and values of dictionaries, attribute dictionaries, elements of iterables that are not text), each once, divided by 1024 for kB and by 2^20 for MB.", "quantifier": "every finite object graph, object and unit", "why_tests_cant": "All shapes of object graphs, cyclic and shared.", "anchors": ["src/skmultiflow/utils/utils.py calculate_object_size 86-149"]}
{"id": "C359", "title": "A part is never larger than the whole", "statement": "No object held by another is larger than it, so a leaf is never larger than its tree; the size depends only on which parts objects have, not on their order or how often they are referred to.", "quantifier": "every finite object graph", "why_tests_cant": "All shapes of object graphs.", "anchors": ["src/skmultiflow/utils/utils.py calculate_object_size 86-149", "src/skmultiflow/trees/hoeffding_tree.py estimate_model_byte_size 670-695"]}
{"id": "C36", "title": "Regression measurements are exact means", "statement": "After any sequence of results, get_mean_square_error and get_average_error equal the means of squared and absolute errors over the results (over the last window_size results for the windowed class, 0 when there are none), and are non-negative.", "quantifier": "every sequence of results and every window_size >= 1 (exact arithmetic)", "why_tests_cant": "subtractive window updates must cancel exactly for all histories", "anchors": ["src/skmultiflow/metrics/measure_collection.py:RegressionMeasurements", "src/skmultiflow/metrics/measure_collection.py:WindowRegressionMeasurements"]}
{"id": "C360", "title": "Removing a header keeps every other line and the base file", "statement": "clean_header and RemoveHeader.clean_file, writing to another file than they read: the new file holds the lines that do not begin with the ignore character, in their order, ended by LF whatever ended them in the base file; all other files, the base file included, stay as they are; cleaning the result again changes nothing.", "quantifier": "every file system, text, end of line (LF, CR LF or CR), ignore character and pair of different paths", "why_tests_cant": "All texts.", "anchors": ["src/skmultiflow/utils/file_scripts.py clean_header 1-44", "src/skmultiflow/utils/file_scripts.py RemoveHeader 47-114"]}
{"id": "C361", "title": "A file can be cleaned in place", "statement": "REFUTED: clean_header(f, new_file=f) empties the file f: it is opened for writing before it is read.", "quantifier": "every file and ignore character", "why_tests_cant": "The loss is total for every content.", "anchors": ["src/skmultiflow/utils/file_scripts.py clean_header 1-44", "src/skmultiflow/utils/file_scripts.py RemoveHeader 47-114"]}
{"id": "C362", "title": "The default name of the cleaned file", "statement": "stem.type is cleaned into stem_no_header.type and stem into stem_no_header, for stems and types without a dot.  REFUTED for other names: what follows a second dot is dropped, so that data.2020.csv and data.2020.txt are cleaned into the same file data_no_header.2020, and ./data.csv into the file '/data' of a directory '_no_header.'.", "quantifier": "every name", "why_tests_cant": "All names.", "anchors": ["src/skmultiflow/utils/file_scripts.py clean_header 1-44", "src/skmultiflow/utils/file_scripts.py RemoveHeader 47-114"]}
{"id": "C363", "title": "Normalising a dictionary", "statement": "normalize_values_in_dict divides every value by the factor, or by their sum if no factor is given, so that they add up to 1; keys and their order stay; a factor 0 raises ValueError and changes nothing.  With inplace the dictionary given is changed and no other; without it none is changed and a new one is answered.", "quantifier": "every heap of dictionaries, dictionary, factor and inplace", "why_tests_cant": "All dictionaries, and all aliases of them.", "anchors": ["src/skmultiflow/utils/utils.py normalize_values_in_dict 39-64"]}
{"id": "C364", "title": "Adding dictionaries", "statement": "add_dict_values gives every key of either dictionary the sum of its values, a missing one counting nothing; with inplace only the first dictionary changes, without it none; also if both are the same dictionary.", "quantifier": "every heap of dictionaries and pair of them", "why_tests_cant": "All dictionaries and aliases.", "anchors": ["src/skmultiflow/utils/utils.py add_dict_values 184-215"]}
{"id": "C365", "title": "The key of the greatest value", "statement": "get_max_value_key answers the first key in insertion order among those of greatest value, 0 for an empty dictionary.", "quantifier": "every dictionary", "why_tests_cant": "All dictionaries, with ties.", "anchors": ["src/skmultiflow/utils/utils.py get_max_value_key 67-83"]}
{"id": "C366", "title": "Classification measurements: confusion matrix", "statement": "Any history of add_result and reset runs without an exception; the labels known are those given followed by each new one at its first appearance, and the cell of two labels is the number of results since the last reset with that true and that predicted label; the sample count is the number of these results.", "quantifier": "every list of labels given (different ones), every history of add_result and reset with any labels and weights", "why_tests_cant": "All histories; new labels appear at any time and extend the matrix in mid-history.", "anchors": ["src/skmultiflow/metrics/measure_collection.py ClassificationMeasurements.__init__, reset, add_result, _get_target_index 41-100, 151-186"]}
{"id": "C367", "title": "Classification measurements: accuracy", "statement": "get_accuracy is the share of the results since the last reset whose prediction equals the true label, whatever the weights and even if the labels given repeat.", "quantifier": "every list of labels and history", "why_tests_cant": "All histories; new labels appear at any time and extend the matrix in mid-history.", "anchors": ["src/skmultiflow/metrics/measure_collection.py ClassificationMeasurements.get_accuracy 128-144"]}
{"id": "C368", "title": "Classification measurements: precision and recall", "statement": "get_precision is, of the results predicted 1, the share that is 1; get_recall is, of the results that are 1, the share predicted 1; 0 where there is none.", "quantifier": "every history", "why_tests_cant": "All histories; new labels appear at any time and extend the matrix in mid-history.", "anchors": ["src/skmultiflow/metrics/measure_collection.py ClassificationMeasurements.get_precision, get_recall 284-322"]}
{"id": "C369", "title": "Classification measurements: Kappa T", "statement": "get_kappa_t is (accuracy - pc) / (1 - pc), 1 if pc is 1, pc being the accuracy of the classifier that repeats the last true label; it is at most 1.", "quantifier": "every history", "why_tests_cant": "All histories; new labels appear at any time and extend the matrix in mid-history.", "anchors": ["src/skmultiflow/metrics/measure_collection.py ClassificationMeasurements.get_kappa_t, add_result 93-95, 211-228"]}
{"id": "C37", "title": "DataStream delivers every sample exactly once and in order", "statement": "For every sequence of batch sizes, the concatenation of the batches returned by next_sample since the last (re)start is the prefix of the data set of the corresponding length: nothing is skipped, repeated or reordered, X and y rows stay paired; restart() starts over from the first row.", "quantifier": "every data set, every sequence of batch sizes and restarts", "why_tests_cant": "batch boundaries relative to the end of data vary without bound", "anchors": ["src/skmultiflow/data/data_stream.py:DataStream.next_sample", "src/skmultiflow/data/data_stream.py:DataStream.restart", "src/skmultiflow/data/file_stream.py:FileStream.next_sample"]}
{"id": "C370", "title": "Classification measurements: majority class", "statement": "get_majority_class answers the most frequent true label since the last reset, among equals the first known one.", "quantifier": "every list of labels given (different ones), every history of add_result and reset with any labels and weights, with at least one result", "why_tests_cant": "All histories; new labels appear at any time and extend the matrix in mid-history.", "anchors": ["src/skmultiflow/metrics/measure_collection.py ClassificationMeasurements.get_majority_class 105-126"]}
{"id": "C371", "title": "Classification measurements: Kappa M", "statement": "get_kappa_m is (accuracy - pc) / (1 - pc), 1 if pc is 1, with pc the weight of the results whose true label was the majority class when they were added, over the number of results.", "quantifier": "every list of labels given (different ones), every history of add_result and reset with any labels and weights", "why_tests_cant": "All histories; new labels appear at any time and extend the matrix in mid-history.", "anchors": ["src/skmultiflow/metrics/measure_collection.py ClassificationMeasurements.get_kappa_m, add_result 91-92, 230-246"]}
{"id": "C372", "title": "Windowed measurements: matrix and accuracy", "statement": "Any history of add_result and reset runs without an exception; sample count, confusion matrix and accuracy are those of the last window_size results since the last reset.", "quantifier": "every list of different labels, window size at least 1 and history of add_result and reset with weights 1; also with other weights", "why_tests_cant": "All histories, longer than the window by any number of results, with new labels at any time.", "anchors": ["src/skmultiflow/metrics/measure_collection.py WindowClassificationMeasurements.add_result, reset, get_accuracy 375-513"]}
{"id": "C373", "title": "Windowed measurements: Kappa T", "statement": "get_kappa_t compares the accuracy in the window with the share of its results whose true label is that of the result before (for the oldest of the window that is a result outside it); it is at most 1.", "quantifier": "every list of different labels, window size at least 1 and history of add_result and reset with weights 1", "why_tests_cant": "All histories, longer than the window by any number of results, with new labels at any time.", "anchors": ["src/skmultiflow/metrics/measure_collection.py WindowClassificationMeasurements.get_kappa_t, add_result 460-464, 580-597"]}
{"id": "C374", "title": "Classification measurements: Cohen's kappa", "statement": "get_kappa is (p0 - pc) / (1 - pc), 1 if pc is 1, where p0 is the accuracy and pc the sum over the known labels of the share of results with that true label times the share with that prediction; it is at most 1.", "quantifier": "every list of different labels given, every history of add_result and reset with at least one result", "why_tests_cant": "All histories and label sets.", "anchors": ["src/skmultiflow/metrics/measure_collection.py ClassificationMeasurements.get_kappa 187-209"]}
{"id": "C375", "title": "Classification measurements: F1 and G-mean", "statement": "With labels 0 and 1, get_f1_score is 2 TP / (ones + predicted ones) and get_g_mean is the root of the recall of the ones times the recall of the zeros; 0 where there is nothing to divide by.", "quantifier": "every history of results with labels 0 and 1 and resets, labels given in either order", "why_tests_cant": "All histories and label sets.", "anchors": ["src/skmultiflow/metrics/measure_collection.py ClassificationMeasurements.get_f1_score, get_g_mean 248-282"]}
{"id": "C376", "title": "Windowed measurements: Kappa M", "statement": "The counter of the majority classifier stays between 0 and the number of results in the window, and get_kappa_m is (accuracy - pc) / (1 - pc), at most 1, with pc that counter over that number.", "quantifier": "every list of labels, window size at least 1 and history of add_result and reset with weights 1 and at least one result", "why_tests_cant": "All histories, longer than the window by any number of results: every addition must be taken back exactly once.", "anchors": ["src/skmultiflow/metrics/measure_collection.py WindowClassificationMeasurements.get_kappa_m, add_result 451-458, 599-615"]}
{"id": "C377", "title": "Validation of weights", "statement": "check_weights with a number answers a flat array of as many copies as asked for; a list of numbers or a non-empty array of numbers is answered unchanged when one copy is asked for; everything that holds something else than numbers, and a list or longer array when another number of copies is asked for, is refused with ValueError.", "quantifier": "every value and number of copies", "why_tests_cant": "All values; the cases depend on types, sizes and the number of copies together.", "anchors": ["src/skmultiflow/utils/validation.py check_weights 33-62"]}
{"id": "C378", "title": "Single and empty weights", "statement": "A single weight is replicated into a flat array whether it comes as a number or as an array of one number, empty weights are treated alike, and ValueError is the only exception.", "quantifier": "every weight and number of copies", "why_tests_cant": "All numbers of copies.", "anchors": ["src/skmultiflow/utils/validation.py check_weights 33-62"]}
{"id": "C379", "title": "Seeds", "statement": "check_random_state with an integer in [0, 2^32) gives a new generator whose draws depend on the seed only, whatever was drawn before from others, and which changes no other generator; a generator given, and that of np.random for None, is answered itself; other values are refused with ValueError.", "quantifier": "every heap of generators, seed and number of draws", "why_tests_cant": "All interleavings with earlier draws.", "anchors": ["src/skmultiflow/utils/validation.py check_random_state 7-30"]}
{"id": "C38", "title": "n_remaining_samples and has_more_samples agree with what is left", "statement": "n_remaining_samples() equals the number of samples not yet delivered (hence is never negative) and has_more_samples() is True exactly if that number is positive.", "quantifier": "every data set and every sequence of batch sizes", "why_tests_cant": "over-reading needs particular batch sizes", "anchors": ["src/skmultiflow/data/data_stream.py:DataStream.n_remaining_samples", "src/skmultiflow/data/data_stream.py:DataStream.has_more_samples"]}
{"id": "C380", "title": "Measuring the speed of a stream: batches", "statement": "evaluate asks the stream for full batches only, in all never for more than n_samples samples nor for more than the stream had left, stops at the first test where the time is over or another batch would exceed one of them, and always ends.", "quantifier": "every n_samples and batch_size at least 1, every clock and number of remaining samples, -1 for a stream without end", "why_tests_cant": "All sizes and every moment at which the time can run out.", "anchors": ["src/skmultiflow/evaluation/evaluate_stream_gen_speed.py EvaluateStreamGenerationSpeed._measure_stream_speed 63-84"]}
{"id": "C381", "title": "Measuring the speed of a stream: progress", "statement": "The percentages told are multiples of 5, in order, none above 100, each told when that share of n_samples has been generated.", "quantifier": "every n_samples and batch_size at least 1 and every clock", "why_tests_cant": "All sizes.", "anchors": ["src/skmultiflow/evaluation/evaluate_stream_gen_speed.py EvaluateStreamGenerationSpeed._measure_stream_speed 77-80"]}
{"id": "C382", "title": "Unsupervised streams can be constructed", "statement": "A class derived from UnsupervisedStream can be constructed and keeps its target, n_targets, target_values, target_names, timestamp and weight.", "quantifier": "every derived class that does not replace the properties, every value and recursion limit", "why_tests_cant": "No limit of nested calls is large enough.", "anchors": ["src/skmultiflow/data/unsupervised_stream.py UnsupervisedStream 4-133"]}
{"id": "C383", "title": "File options", "statement": "get_name, get_file_name, get_value, get_option_type, get_cli_char and is_output of a FileOption answer what its constructor was given.", "quantifier": "every FileOption", "why_tests_cant": "All arguments.", "anchors": ["src/skmultiflow/options/file_option.py FileOption 29-53"]}
{"id": "C384", "title": "The lines of the plots hold the whole history", "statement": "Whatever the calls of an evaluator, the two lines (mean and current) of each model in the plot of a performance metric are the values of all calls, in order, over the sample ids of all calls, in order. A call that brings fewer values than there are models is refused with a ValueError.", "quantifier": "all numbers of models, metrics and sequences of calls with a value per model", "why_tests_cant": "A test looks at a short run; a value lost or written to another model's line shows only for some numbers of models and calls.", "anchors": ["src/skmultiflow/visualization/evaluation_visualizer.py: EvaluationVisualizer.on_new_train_step, _update_plots"]}
{"id": "C385", "title": "When the plots are drawn again", "statement": "A call draws the figure exactly if more than a second has passed since the last drawing or it is the sixth call since then (before the first drawing the clock counts from 0), so there are never six calls in a row without a drawing.", "quantifier": "all sequences of calls and of clock readings", "why_tests_cant": "Depends on the clock: a test sees one timing.", "anchors": ["src/skmultiflow/visualization/evaluation_visualizer.py: EvaluationVisualizer.on_new_train_step, _update_plots"]}
{"id": "C386", "title": "The plots show the values", "statement": "The values of all models lie within the limits of the axis of their plot.", "quantifier": "all metrics, sequences of calls and values", "why_tests_cant": "The limits depend on the values; a test uses values for which the default limits do.", "anchors": ["src/skmultiflow/visualization/evaluation_visualizer.py: EvaluationVisualizer.on_new_train_step, _update_plots"]}
{"id": "C387", "title": "The points of the data points plot", "statement": "The data points plot shows, for each class, the last 100 points predicted as that class, and keeps no more than that.", "quantifier": "all sequences of points and predictions, all target values", "why_tests_cant": "Depends on the labels and on the length of the run.", "anchors": ["src/skmultiflow/visualization/evaluation_visualizer.py: EvaluationVisualizer.on_new_train_step, _update_plots", "src/skmultiflow/utils/data_structures.py: FastBuffer"]}
{"id": "C388", "title": "Every metric of an evaluator can be plotted", "statement": "An evaluator that shows plots gets one subplot for each of its metrics that has one, one below the other, whatever the order of the metrics.", "quantifier": "all lists of metrics", "why_tests_cant": "Depends on the number and order of the metrics; a test uses one list.", "anchors": ["src/skmultiflow/visualization/evaluation_visualizer.py: EvaluationVisualizer.__init__, __configure, _update_plots", "src/skmultiflow/evaluation/base_evaluator.py: StreamEvaluator._check_configuration, _init_plot"]}
{"id": "C389", "title": "Which arguments a visualizer accepts", "statement": "A visualizer is constructed exactly for a known task, no model names or a list of as many names as models, at least one metric, no data points for several models, and metrics that can be placed; its names are the given ones or else the default ones.", "quantifier": "all arguments", "why_tests_cant": "The combinations of arguments are unbounded.", "anchors": ["src/skmultiflow/visualization/evaluation_visualizer.py: EvaluationVisualizer.__init__, __configure, _update_plots", "src/skmultiflow/evaluation/base_evaluator.py: StreamEvaluator._check_configuration, _init_plot"]}
{"id": "C39", "title": "TimeManager hands out each queued sample exactly once, not before its label is available", "statement": "For every sequence of update_queue and get_available_samples calls each queued sample is handed out at most once, only by a call whose timestamp is at or after its available time, and every sample whose available time has passed is handed out by the next call; the rest stays queued in order of availability.", "quantifier": "every set of arrival and delay times, every sequence of calls, every order in which the sort leaves ties", "why_tests_cant": "interleavings of arrival and availability times are unbounded", "anchors": ["src/skmultiflow/data/time_manager.py:TimeManager.update_queue", "src/skmultiflow/data/time_manager.py:TimeManager.get_available_samples", "src/skmultiflow/data/time_manager.py:TimeManager.sort_queue"]}
{"id": "C390", "title": "The plot of true and predicted values shows the newest values", "statement": "After each call the newest true value and the newest predictions of all models are within the limits of the axis of the true-vs-predicted plot.", "quantifier": "all values and numbers of models", "why_tests_cant": "Depends on the values of all models.", "anchors": ["src/skmultiflow/visualization/evaluation_visualizer.py: EvaluationVisualizer.__init__, __configure, _update_plots", "src/skmultiflow/evaluation/base_evaluator.py: StreamEvaluator._check_configuration, _init_plot"]}
{"id": "C40", "title": "TimeManager.next_sample returns the oldest queued samples", "statement": "next_sample(k) returns the first k queued samples (all if fewer) and removes exactly those from the queue.", "quantifier": "every queue and every k", "why_tests_cant": "every queue length against every batch size, with and without weights", "anchors": ["src/skmultiflow/data/time_manager.py:TimeManager.next_sample"]}
{"id": "C41", "title": "Prequential evaluation tests every sample before training on it", "statement": "In every run of EvaluatePrequential each sample after the pre-training phase is predicted exactly once by each model, before that model is trained on it, with a model trained exactly on all samples that preceded its batch; pre-training samples are never scored.", "quantifier": "every stream, batch size, pretrain size, max_samples, set of models", "why_tests_cant": "all loop executions", "anchors": ["src/skmultiflow/evaluation/evaluate_prequential.py:EvaluatePrequential._train_and_test"]}
{"id": "C42", "title": "Prequential evaluation processes no more than max_samples samples", "statement": "The number of samples drawn from the stream never exceeds max(max_samples, pretrain_size) and every drawn sample after pre-training is evaluated.", "quantifier": "every stream, batch size, pretrain size and max_samples", "why_tests_cant": "batch sizes not dividing max_samples", "anchors": ["src/skmultiflow/evaluation/evaluate_prequential.py:EvaluatePrequential._train_and_test"]}
{"id": "C43", "title": "Holdout evaluation never trains on test samples", "statement": "In every run of EvaluateHoldout the samples used for testing and the samples used for training are disjoint positions of the stream, with static and with dynamic test sets.", "quantifier": "every stream, batch size, test_size, n_wait, max_samples", "why_tests_cant": "all loop executions", "anchors": ["src/skmultiflow/evaluation/evaluate_holdout.py:EvaluateHoldout._periodic_holdout"]}
{"id": "C44", "title": "Delayed prequential evaluation trains only on labels already available", "statement": "In every run of EvaluatePrequentialDelayed a model is trained on a sample only after predicting and scoring it, and, until the evaluator stops drawing samples, only when the stream clock has reached the sample's availability time; each evaluated sample is scored exactly once, with its true label and the prediction made when it arrived; afterwards the samples still waiting are scored and trained on too.", "quantifier": "every temporal stream (weighted or not), delays, batch sizes, pretrain sizes, learners that may raise at any point", "why_tests_cant": "orders of arrival and availability are unbounded", "anchors": ["src/skmultiflow/evaluation/evaluate_prequential_delayed.py:EvaluatePrequentialDelayed._train_and_test", "src/skmultiflow/data/time_manager.py:TimeManager"]}
{"id": "C45", "title": "WindowedMinmaxScaler scales features into the unit interval", "statement": "Transformed values of features inside the range of the current window lie in [0,1].", "quantifier": "every window content and every value", "why_tests_cant": "absence of scaling for all inputs", "anchors": ["src/skmultiflow/transform/windowed_minmax_scaler.py:WindowedMinmaxScaler.transform"]}
{"id": "C46", "title": "WindowedStandardScaler centres with the statistics of the last window_size rows", "statement": "Each transformed value equals (x - mean)/std of the last window_size original rows preceding it (std replaced by 1 if 0); transforming never raises; the window content is the last window_size original rows.", "quantifier": "every window_size >= 1 and every sequence of partial_fit and transform calls on arrays that are passed once (exact arithmetic)", "why_tests_cant": "window contents depend on unbounded history", "anchors": ["src/skmultiflow/transform/windowed_standard_scaler.py:WindowedStandardScaler.transform"]}
{"id": "C47", "title": "MissingValuesCleaner leaves no missing value behind and does not touch other cells", "statement": "After transform, no cell of the returned data equals a missing marker unless the substitute itself is one, and every non-missing cell is unchanged, for every strategy.", "quantifier": "every data set and strategy", "why_tests_cant": "positions of missing values are arbitrary", "anchors": ["src/skmultiflow/transform/missing_values_cleaner.py:MissingValuesCleaner.transform"]}
{"id": "C48", "title": "OneHotToCategorical decodes every one-hot block and copies the other columns", "statement": "For well formed one-hot rows, transform replaces each categorical block by the index of its 1 and copies the other columns in order, for every position of the blocks.", "quantifier": "every column layout and every row", "why_tests_cant": "all layouts (blocks first, last, in the middle)", "anchors": ["src/skmultiflow/transform/one_hot_to_categorical.py:OneHotToCategorical._transform"]}
{"id": "C49", "title": "Numeric regression observer (E-BST): every candidate split partitions the observed data exactly", "statement": "For every sequence of updates, and every distinct observed value v, the candidate split at v carries as left statistics exactly the (weight, sum, sum of squares) of all observations with value <= v and as right statistics the remainder; the candidate cut points are exactly the distinct observed values.", "quantifier": "every sequence of (value,target,weight) observations (exact arithmetic)", "why_tests_cant": "tree shapes are unbounded", "anchors": ["src/skmultiflow/trees/_attribute_observer/numeric_attribute_regression_observer.py:NumericAttributeRegressionObserver.update", "src/skmultiflow/trees/_attribute_observer/numeric_attribute_regression_observer.py:NumericAttributeRegressionObserver._find_best_split"]}
{"id": "C50", "title": "Numeric regression observer returns the best candidate split", "statement": "get_best_evaluated_split_suggestion returns a candidate whose merit is the maximum over all candidate cut points, and among those the smallest cut point.", "quantifier": "every sequence of observations and every merit function", "why_tests_cant": "tree shapes and merit functions are unbounded", "anchors": ["src/skmultiflow/trees/_attribute_observer/numeric_attribute_regression_observer.py:NumericAttributeRegressionObserver._find_best_split"]}
{"id": "C51", "title": "Nominal class observer: counts and split distributions are exact", "statement": "For every sequence of updates the multiway split distributions and the binary split distributions are exactly the per-value, per-class observed weights; each binary split's two sides add up to the total class distribution.", "quantifier": "every sequence of updates", "why_tests_cant": "arbitrary sets of values and classes", "anchors": ["src/skmultiflow/trees/_attribute_observer/nominal_attribute_class_observer.py:NominalAttributeClassObserver"]}
{"id": "C52", "title": "Gaussian estimator is an exact weighted mean and variance", "statement": "After any sequence of observations with positive weights, get_mean is the weighted mean, get_total_weight_observed the total weight, get_variance equals sum w_i (x_i - mean)^2/(W-1) when W>1 (else 0), and variance is never negative.", "quantifier": "every sequence of finite observations with positive weights (exact arithmetic)", "why_tests_cant": "incremental formula must equal batch formula for all histories", "anchors": ["src/skmultiflow/trees/gaussian_estimator.py:GaussianEstimator.add_observation"]}
{"id": "C53", "title": "Numeric class observer (binary tree) records observations", "statement": "update(value, class, weight) records the observation.", "quantifier": "every observer history", "why_tests_cant": "a failure on every input is a universal statement", "anchors": ["src/skmultiflow/trees/_attribute_observer/numeric_attribute_class_observer_binary_tree.py:NumericAttributeClassObserverBinaryTree.update"]}
{"id": "C54", "title": "Split tests send every instance to exactly one branch consistent with the rule text", "statement": "branch_for_instance returns the branch whose branch_rule predicate the instance satisfies, and -1 if the instance does not have the tested attribute; branches are mutually exclusive and exhaustive for binary tests.", "quantifier": "every instance and every test", "why_tests_cant": "all attribute values and indices", "anchors": ["src/skmultiflow/trees/_attribute_test/numeric_attribute_binary_test.py:NumericAttributeBinaryTest", "src/skmultiflow/trees/_attribute_test/nominal_attribute_binary_test.py:NominalAttributeBinaryTest", "src/skmultiflow/trees/_attribute_test/nominal_attribute_multiway_test.py:NominalAttributeMultiwayTest", "src/skmultiflow/rules/base_predicate.py:Predicate"]}
{"id": "C55", "title": "Class split criteria stay in their declared range, regression criterion never divides by zero", "statement": "For non-negative class distributions with positive total weight, Gini merit lies in [0,1]; information gain of a split whose branches partition the parent distribution is -inf or lies in [0, get_range_of_merit]; variance reduction of a split with at least one branch never divides by zero.", "quantifier": "every class distribution and every partition of it (exact arithmetic)", "why_tests_cant": "real-valued distributions of any size", "anchors": ["src/skmultiflow/trees/_split_criterion/gini_split_criterion.py:GiniSplitCriterion", "src/skmultiflow/trees/_split_criterion/info_gain_split_criterion.py:InfoGainSplitCriterion", "src/skmultiflow/trees/_split_criterion/variance_reduction_split_criterion.py:VarianceReductionSplitCriterion"]}
{"id": "C56", "title": "No drift detector alarms on a constant stream", "statement": "On a stream of identical values DDM (values 0 or 1), EDDM, Page-Hinkley (delta, threshold >= 0), HDDM_A and HDDM_W (confidences in (0,1], values >= 0) never report a warning or a change.", "quantifier": "every constant, every length, every parameter setting as given (exact arithmetic)", "why_tests_cant": "all lengths and parameters", "anchors": ["src/skmultiflow/drift_detection/ddm.py:DDM", "src/skmultiflow/drift_detection/eddm.py:EDDM", "src/skmultiflow/drift_detection/page_hinkley.py:PageHinkley", "src/skmultiflow/drift_detection/hddm_a.py:HDDM_A", "src/skmultiflow/drift_detection/hddm_w.py:HDDM_W"]}
{"id": "C57", "title": "DDM decides by the published rule", "statement": "From the (min_num_instances-1)-th value of a segment on, DDM reports a change iff p+s > p_min + out_control_level*s_min, otherwise a warning iff p+s > p_min + warning_level*s_min, where (p_min, s_min) are the error rate and deviation of the longest eligible prefix of the segment that minimises p+s.", "quantifier": "every stream and every parameter setting (exact arithmetic)", "why_tests_cant": "the minimum ranges over all prefixes of an arbitrary stream", "anchors": ["src/skmultiflow/drift_detection/ddm.py:DDM.add_element"]}
{"id": "C58", "title": "EDDM decides by the published rule", "statement": "EDDM reports a change iff the last value is an error, at least 29 values and more than 30 errors were seen since the restart, and mean distance + 2 deviations is below 0.9 of its maximum over the errors so far; the warning flag says that at the last error the ratio was in [0.9, 0.95).", "quantifier": "every stream and history (exact arithmetic)", "why_tests_cant": "maximum over all prefixes of an arbitrary stream", "anchors": ["src/skmultiflow/drift_detection/eddm.py:EDDM.add_element"]}
{"id": "C59", "title": "HDDM_W decides by the one-sided W-test", "statement": "For non-negative values HDDM_W reports a change (warning) iff the exponentially weighted mean of the values after the cut exceeds that of the values up to the cut by more than the McDiarmid bound at the drift (warning) confidence, where the cut is the shortest prefix with the smallest upper confidence bound.", "quantifier": "every stream of non-negative values, every configuration with confidences in (0,1], lambda in [0,1] (exact arithmetic)", "why_tests_cant": "minimum over all prefixes of an arbitrary stream", "anchors": ["src/skmultiflow/drift_detection/hddm_w.py:HDDM_W.add_element"]}
{"id": "C60", "title": "ADWIN answers by the stated cut rule", "statement": "A detected_change() call that tests (its ordinal is a multiple of the clock and the window holds more than ten elements) returns True exactly when, for some of the two-sided splits it examines, both sides hold at least five elements and their means differ by more than sqrt(2*m*var*d)+2/3*d*m with d=ln(2 ln W/delta) and m=1/(n0-4)+1/(n1-4); when the call returns, no examined split of the remaining window separates it any more.", "quantifier": "all delta in (0,1], all call histories (real arithmetic)", "why_tests_cant": "The set of examined splits depends on the whole bucket structure, hence on the whole history.", "anchors": ["src/skmultiflow/drift_detection/adwin.py:ADWIN.detected_change"]}
{"id": "C61", "title": "utils.ConfusionMatrix.remove outside the matrix answers False", "statement": "remove(i, j) with a label outside the current matrix returns False, changes nothing and raises no IndexError, as documented.", "quantifier": "all matrices and all non-negative label pairs", "why_tests_cant": "The boundary case i == size depends on how the matrix was grown before.", "anchors": ["src/skmultiflow/utils/data_structures.py:ConfusionMatrix.remove"]}
{"id": "C62", "title": "MOLConfusionMatrix counts exactly what was reported", "statement": "After any history of update, remove, reshape and restart calls with non-negative targets, value_at(t,i,j) equals accepted updates minus accepted removals at that cell since the last restart; main diagonal, discordance and total are the corresponding sums; update accepts exactly binary labels with a target at most one beyond the last.", "quantifier": "all histories of calls", "why_tests_cant": "The matrix grows along the history; cells must survive every growth.", "anchors": ["src/skmultiflow/utils/data_structures.py:MOLConfusionMatrix"]}
{"id": "C63", "title": "FastComplexBuffer is a bounded FIFO of entries", "statement": "After any history of add_element, get_next_element and clear_queue calls the buffer holds the most recent max_size entries in order and reports evicted entries oldest first, whether entries are added one by one or in batches.", "quantifier": "all capacities >= 1 and all call histories", "why_tests_cant": "Quantifies over all interleavings of single and batch insertions.", "anchors": ["src/skmultiflow/utils/data_structures.py:FastComplexBuffer"]}
{"id": "C64", "title": "Kappa-T, Kappa-M and the majority class use the right baselines", "statement": "For unit weights kappa_t_score() and kappa_m_score() are (p0-pe)/(1-pe) (0 when pe is 1) with p0 the accuracy and pe the accuracy of the classifier repeating the previous true label, respectively of predicting the majority label of the history up to each result; majority_class() is the smallest label with the largest recorded weight (0 before any positive weight).", "quantifier": "every sequence of results", "why_tests_cant": "baselines depend on the whole label history and on ties; a test checks one sequence", "anchors": ["src/skmultiflow/metrics/_classification_performance_evaluator.pyx: ClassificationPerformanceEvaluator.kappa_t_score, kappa_m_score, majority_class"]}
{"id": "C65", "title": "Precision, recall and geometric mean are the textbook quantities", "statement": "precision_score(c) and recall_score(c) equal the class's precision and recall recomputed from the results (0 when undefined); with no argument they are those of class 1 when two classes are known and the unweighted mean over the known classes otherwise; geometric_mean_score() is the geometric mean of the recalls.", "quantifier": "every sequence of results with any weights, every class c >= 0", "why_tests_cant": "must hold for every multiset of results and every set of classes, including unseen ones", "anchors": ["src/skmultiflow/metrics/_classification_performance_evaluator.pyx: precision_score, recall_score, geometric_mean_score"]}
{"id": "C66", "title": "Windowed macro scores only depend on the results in the window", "statement": "The windowed evaluator's precision, recall, F1 and geometric mean equal those of a fresh evaluator fed with the last window_size results.", "quantifier": "every window_size and every sequence of unit-weight results", "why_tests_cant": "depends on which classes have left the window", "anchors": ["src/skmultiflow/metrics/_classification_performance_evaluator.pyx: WindowClassificationPerformanceEvaluator.add_result"]}
{"id": "C67", "title": "Multi-label evaluator: a rejected result leaves no trace", "statement": "When add_result rejects a sample (different lengths, NaN, label values other than 0/1) all scores keep their values.", "quantifier": "every evaluator state and every pair of label vectors", "why_tests_cant": "quantifies over states and malformed inputs", "anchors": ["src/skmultiflow/metrics/_classification_performance_evaluator.pyx: MultiLabelClassificationPerformanceEvaluator.add_result, WindowMultiLabelClassificationPerformanceEvaluator.add_result, _check_multi_label_inputs"]}
{"id": "C68", "title": "Multi-target regression measurements are averages of per-target errors", "statement": "After any sequence of results with m targets, the average mean square, absolute and root mean square errors equal the averages over the targets of the errors recomputed from all results (from the last window_size results for the windowed class), 0 before any result, and add_result never raises.", "quantifier": "every number of targets, every sequence of results, every window_size >= 1 (exact arithmetic)", "why_tests_cant": "subtractive vector updates must cancel for every history", "anchors": ["src/skmultiflow/metrics/measure_collection.py:MultiTargetRegressionMeasurements", "src/skmultiflow/metrics/measure_collection.py:WindowMultiTargetRegressionMeasurements"]}
{"id": "C69", "title": "Running time measurements add up the measured intervals", "statement": "Training and testing times are the sums of the lengths of the measured intervals, the sample count the sum of the reported increments (1 for a non-positive one), and the total running time is training plus testing time as of the last report.", "quantifier": "every sequence of timed actions and reports and every clock", "why_tests_cant": "must hold for every interleaving of intervals and reports", "anchors": ["src/skmultiflow/metrics/measure_collection.py:RunningTimeMeasurements"]}
{"id": "C70", "title": "hamming_score, j_index and exact_match are the textbook scores", "statement": "On every non-empty matrix of 0/1 labels hamming_score, exact_match and j_index are the label accuracy, subset accuracy and mean Jaccard index; all lie in [0, 1], exact_match <= j_index <= hamming_score, and they are 1 exactly when all predictions are right.", "quantifier": "every number of samples and labels, every matrix", "why_tests_cant": "universal over matrices of any size", "anchors": ["src/skmultiflow/metrics/measure_collection.py:hamming_score", "src/skmultiflow/metrics/measure_collection.py:j_index", "src/skmultiflow/metrics/measure_collection.py:exact_match"]}
{"id": "C71", "title": "Incremental multi-target scores equal the batch functions", "statement": "After any sequence of results the scores of MultiTargetClassificationMeasurements equal the batch functions on all results, and those of the windowed class equal them on the last window_size results.", "quantifier": "every sequence of 0/1 label vectors, every targets argument, every window_size >= 1", "why_tests_cant": "two computations must agree on every history", "anchors": ["src/skmultiflow/metrics/measure_collection.py:MultiTargetClassificationMeasurements", "src/skmultiflow/metrics/measure_collection.py:WindowMultiTargetClassificationMeasurements"]}
{"id": "C72", "title": "The windowed multi-target matrix counts the window only", "statement": "get_total_sum() of WindowMultiTargetClassificationMeasurements is the number of labels in the last window_size results.", "quantifier": "every sequence of results, every window_size >= 1", "why_tests_cant": "the wrong removal is silent: only the matrix of a full window shows it", "anchors": ["src/skmultiflow/metrics/measure_collection.py:WindowMultiTargetClassificationMeasurements.add_result"]}
{"id": "C73", "title": "Every column of the table is a feature or a target, and none is lost", "statement": "A DataStream or FileStream built from a table with target_idx and n_targets inside the table delivers as y exactly the n_targets columns starting at target_idx (negative indices count from the right) and as X exactly all the other columns in their order; n_features, n_targets, feature_names and target_names say the same.", "quantifier": "every table, every target position and number of targets, positive or negative target_idx", "why_tests_cant": "position, sign and column names combine without bound", "anchors": ["src/skmultiflow/data/data_stream.py:DataStream._load_data", "src/skmultiflow/data/file_stream.py:FileStream._load_data"]}
{"id": "C74", "title": "With the default target_idx the last n_targets columns are the targets", "statement": "A stream over a table built with n_targets=n and no target_idx uses the last n columns as targets.", "quantifier": "every table and every n up to its number of columns, for FileStream and DataStream", "why_tests_cant": "all widths and numbers of targets", "anchors": ["src/skmultiflow/data/file_stream.py:FileStream.__init__", "src/skmultiflow/data/data_stream.py:DataStream._load_data"]}
{"id": "C75", "title": "target_values and n_classes describe the labels that occur", "statement": "For a single-target classification table target_values lists every label that occurs exactly once in increasing order, and nothing else, and n_classes is its length.", "quantifier": "every integer target column", "why_tests_cant": "every label multiset", "anchors": ["src/skmultiflow/data/data_stream.py:DataStream._get_target_values", "src/skmultiflow/data/data_stream.py:DataStream._load_data"]}
{"id": "C76", "title": "Inconsistent data are refused at construction", "statement": "Building a stream raises ValueError if a column is non-numeric, if a value is missing and allow_nan is off, or if X and y differ in their number of rows; otherwise (no categorical indices given) it succeeds.", "quantifier": "every table, every option value", "why_tests_cant": "the offending cell can be anywhere in a table of any size", "anchors": ["src/skmultiflow/data/data_stream.py:check_data_consistency", "src/skmultiflow/data/data_stream.py:DataStream.__init__"]}
{"id": "C77", "title": "TemporalDataStream keeps each row's targets, times and weight together", "statement": "With ordered=False the stream delivers the rows in order of time and each row with its own targets, time, label time and weight; every batch takes all five from the same rows; with an integer delay d the i-th delivered row arrives at i and its label is available at i+d.", "quantifier": "every data set, every time column including ties, all three ways of giving the delay, every batch size", "why_tests_cant": "order of ties and permutations are unbounded", "anchors": ["src/skmultiflow/data/temporal_data_stream.py:TemporalDataStream.__init__", "src/skmultiflow/data/temporal_data_stream.py:TemporalDataStream.next_sample"]}
{"id": "C78", "title": "restart() clears the last sample", "statement": "After restart() and before the next next_sample(), last_sample() reports no sample at all.", "quantifier": "every stream and every history of calls", "why_tests_cant": "all histories", "anchors": ["src/skmultiflow/data/data_stream.py:DataStream.restart", "src/skmultiflow/data/temporal_data_stream.py:TemporalDataStream.last_sample"]}
{"id": "C79", "title": "A completed evaluation returns and its final report covers everything evaluated", "statement": "Whenever no learner raises, the time limit is not hit and pre-training leaves samples to evaluate, evaluate() of the prequential and holdout evaluators returns, and (prequential) the last thing done is to report metrics covering every sample evaluated.", "quantifier": "every stream, learner, batch size, n_wait, pretrain size and max_samples", "why_tests_cant": "relations between n_wait, batch size, stream length and max_samples are unbounded", "anchors": ["src/skmultiflow/evaluation/evaluate_prequential.py:EvaluatePrequential._train_and_test", "src/skmultiflow/evaluation/evaluate_holdout.py:EvaluateHoldout._periodic_holdout", "src/skmultiflow/evaluation/base_evaluator.py:StreamEvaluator._check_progress"]}
{"id": "C80", "title": "Delayed evaluation trains each sample with its own weight", "statement": "When EvaluatePrequentialDelayed passes sample weights to partial_fit, they are the weights of the samples passed with them.", "quantifier": "every weighted temporal stream, delays, batch sizes", "why_tests_cant": "arrival and availability interleavings are unbounded; the shipped tests use unweighted streams", "anchors": ["src/skmultiflow/evaluation/evaluate_prequential_delayed.py:EvaluatePrequentialDelayed._train_and_test"]}
{"id": "C81", "title": "Delayed evaluation reports and returns on every finite stream", "statement": "EvaluatePrequentialDelayed.evaluate on a finite stream with well-behaved learners updates its metrics at least once and returns the models.", "quantifier": "every finite temporal stream, n_wait, max_samples, pretrain_size", "why_tests_cant": "depends on the relation between stream length, n_wait and pretrain_size for all values", "anchors": ["src/skmultiflow/evaluation/evaluate_prequential_delayed.py:EvaluatePrequentialDelayed._update_metrics_delayed"]}
{"id": "C82", "title": "Delayed evaluation draws no more than max_samples samples", "statement": "EvaluatePrequentialDelayed draws at most max_samples samples (rounded up to a batch) from the stream.", "quantifier": "every temporal stream, delays, max_samples", "why_tests_cant": "depends on delays of unbounded length", "anchors": ["src/skmultiflow/evaluation/evaluate_prequential_delayed.py:EvaluatePrequentialDelayed._train_and_test"]}
{"id": "C83", "title": "Transforming the array a scaler was fitted on does not corrupt its statistics", "statement": "The window statistics are those of the original rows even when the caller transforms an array it passed to partial_fit before.", "quantifier": "every history of partial_fit and transform calls, including repeated arrays", "why_tests_cant": "depends on aliasing between calls", "anchors": ["src/skmultiflow/transform/windowed_standard_scaler.py:WindowedStandardScaler.partial_fit", "src/skmultiflow/transform/windowed_minmax_scaler.py:WindowedMinmaxScaler.partial_fit"]}
{"id": "C84", "title": "Transforms leave the caller's array unchanged", "statement": "After transform(X) the rows of X hold the values they held before.", "quantifier": "every transform with a window and every array", "why_tests_cant": "must hold for all inputs and histories", "anchors": ["src/skmultiflow/transform/windowed_standard_scaler.py:WindowedStandardScaler.transform", "src/skmultiflow/transform/missing_values_cleaner.py:MissingValuesCleaner.transform"]}
{"id": "C85", "title": "Replacement values are computed from the known values only", "statement": "With strategy mean, median or mode the substitute of a missing cell is the statistic of the non-missing values of the column in the window.", "quantifier": "every list of missing markers and every window", "why_tests_cant": "all marker lists and window contents", "anchors": ["src/skmultiflow/transform/missing_values_cleaner.py:MissingValuesCleaner._get_substitute"]}
{"id": "C86", "title": "Gaussian attribute observer: densities, candidate cuts and the chosen split", "statement": "After any history of observations with positive weights, the observer's class-conditional density is the normal density fitted to that class's observations (0 for an unseen class). The suggested split is the first of maximal merit among the equidistant cut points strictly between the smallest and the largest observed value. For every candidate the estimated weights of a class on the two sides are non-negative and add up to the class weight, are one-sided when all values of the class are on one side, and otherwise follow the fitted normal distribution. There is no suggestion exactly when fewer than two distinct values were observed.", "quantifier": "every history of observations, every merit function, every number of bins (exact arithmetic)", "why_tests_cant": "the sides come from an incremental fit and per-class ranges kept in dictionaries re-sorted at each new class; they have to agree for every history", "anchors": ["src/skmultiflow/trees/_attribute_observer/numeric_attribute_class_observer_gaussian.py:NumericAttributeClassObserverGaussian"]}
{"id": "C87", "title": "Estimated left weight grows with the cut point", "statement": "For a class, moving the cut point to the right never decreases the estimated weight on its left.", "quantifier": "every history and every pair of cut points", "why_tests_cant": "quantifies over all histories, including zero-variance classes", "anchors": ["src/skmultiflow/trees/gaussian_estimator.py:GaussianEstimator.estimated_weight_lessthan_equalto_greaterthan_value"]}
{"id": "C88", "title": "Numeric regression observer: pruning removes only bad candidates", "statement": "remove_bad_splits removes only cut points whose merit divided by the last best merit is below last_check_ratio - 2*last_check_e; every remaining cut point keeps the exact statistics of all observations so far, and the best suggestion is unchanged when its own ratio reaches the bound.", "quantifier": "every history, criterion and pruning parameters (non-zero last merit)", "why_tests_cant": "pruning is a recursive rewrite of an arbitrary tree with auxiliary sums maintained across it", "anchors": ["src/skmultiflow/trees/_attribute_observer/numeric_attribute_regression_observer.py:NumericAttributeRegressionObserver.remove_bad_splits"]}
{"id": "C89", "title": "Numeric regression observer: candidates stay exact after pruning and further observations", "statement": "After pruning, candidates created by later observations still carry the statistics of all observations up to their cut point.", "quantifier": "every interleaving of observations and prunings", "why_tests_cant": "interleavings are unbounded", "anchors": ["src/skmultiflow/trees/_attribute_observer/numeric_attribute_regression_observer.py:NumericAttributeRegressionObserver.remove_bad_splits", "src/skmultiflow/trees/_attribute_observer/numeric_attribute_regression_observer.py:NumericAttributeRegressionObserver.update"]}
{"id": "C90", "title": "Nominal class observer: attribute probabilities are smoothed frequencies", "statement": "probability_of_attribute_value_given_class returns (weight of value and class + 1) / (weight of class + number of values of that class), 0 for a class never observed.", "quantifier": "every sequence of updates, value and class", "why_tests_cant": "arbitrary histories of weights, values and classes", "anchors": ["src/skmultiflow/trees/_attribute_observer/nominal_attribute_class_observer.py:NominalAttributeClassObserver.probability_of_attribute_value_given_class"]}
{"id": "C91", "title": "Nominal regression observer: split statistics are exact and the best candidate is returned", "statement": "For every sequence of updates the suggested split carries, per branch, the exact weight, sum and sum of squares of the targets observed with that value, and no other candidate has a larger merit.", "quantifier": "every sequence of updates and every criterion", "why_tests_cant": "arbitrary histories and an arbitrary merit function", "anchors": ["src/skmultiflow/trees/_attribute_observer/nominal_attribute_regression_observer.py:NominalAttributeRegressionObserver"]}
{"id": "C92", "title": "Rule predicates that compare equal accept the same instances", "statement": "If two predicates compare equal with == they cover the same instances.", "quantifier": "every pair of predicates and instance", "why_tests_cant": "all thresholds and instances", "anchors": ["src/skmultiflow/rules/base_predicate.py:Predicate.__eq__", "src/skmultiflow/rules/base_predicate.py:Predicate.covers_instance"]}
{"id": "C93", "title": "A split never looks worse than not splitting", "statement": "For branches that share out the parent's data, the merit of the split is at least the merit of keeping the parent whole: Gini does not decrease, information gain, variance reduction and intra-cluster variance reduction are not negative.", "quantifier": "every distribution and every partition of it; every weighted sample and every partition of it", "why_tests_cant": "concavity statements about all real-valued distributions", "anchors": ["src/skmultiflow/trees/_split_criterion/gini_split_criterion.py:GiniSplitCriterion.get_merit_of_split", "src/skmultiflow/trees/_split_criterion/info_gain_split_criterion.py:InfoGainSplitCriterion.get_merit_of_split", "src/skmultiflow/trees/_split_criterion/variance_reduction_split_criterion.py:VarianceReductionSplitCriterion.get_merit_of_split", "src/skmultiflow/trees/_split_criterion/intra_cluster_variance_reduction_split_criterion.py:IntraClusterVarianceReductionSplitCriterion.get_merit_of_split"]}
{"id": "C94", "title": "Hellinger and variance-reduction merits stay in their declared range and rank a perfect split first", "statement": "Merits do not exceed get_range_of_merit, and a split that separates the two classes perfectly gets the largest Hellinger merit.", "quantifier": "every class distribution, every sample", "why_tests_cant": "real-valued distributions of any size", "anchors": ["src/skmultiflow/trees/_split_criterion/hellinger_distance_criterion.py:HellingerDistanceCriterion", "src/skmultiflow/trees/_split_criterion/variance_reduction_split_criterion.py:VarianceReductionSplitCriterion.get_range_of_merit"]}
{"id": "C95", "title": "Generator batches", "statement": "Reading a synthetic generator in calls of any sizes gives exactly the samples of one call of the total size, the same next samples afterwards, sample_idx advanced by the total, and last_sample returns the latest batch.", "quantifier": "every generator loop body, every list of batch sizes, every generator state and random source", "why_tests_cant": "Every way of cutting the stream and every random source.", "anchors": ["src/skmultiflow/data/sea_generator.py next_sample", "src/skmultiflow/data/base_stream.py last_sample"]}
{"id": "C96", "title": "Generator restart", "statement": "restart() of a generator with an int random_state makes it emit the very samples a fresh generator emits, whatever was read before. Refuted after generate_drift() (the drifted concept stays) and for a shared RandomState (the samples differ).", "quantifier": "every history of next_sample and restart calls, every seed and every continuation of batch sizes", "why_tests_cant": "All histories before the restart.", "anchors": ["src/skmultiflow/data/base_stream.py restart", "src/skmultiflow/data/sea_generator.py generate_drift", "src/skmultiflow/data/hyper_plane_generator.py _prepare_for_use"]}
{"id": "C97", "title": "Generator labels follow the documented concept", "statement": "With no noise every sample of SEA, STAGGER, Sine, Mixed and AGRAWAL has features in the documented domain and the label of the selected documented classification function. AGRAWAL's function 4 is refuted: it tests the salary where the concept tests the loan, so no middle-aged applicant is ever in group A.", "quantifier": "every seed, every history of calls, every classification function, balanced or not", "why_tests_cant": "All draws of the random source.", "anchors": ["src/skmultiflow/data/sea_generator.py", "src/skmultiflow/data/stagger_generator.py", "src/skmultiflow/data/sine_generator.py", "src/skmultiflow/data/mixed_generator.py", "src/skmultiflow/data/agrawal_generator.py"]}
{"id": "C98", "title": "Balanced generators alternate the classes", "statement": "With balance_classes the labels of the noise-free generators alternate 1, 0, 1, 0, ... across batches and calls. Refuted for SEA with noise: labels flip after the balancing.", "quantifier": "every concept, random source and list of batch sizes", "why_tests_cant": "All batch cuttings and draws.", "anchors": ["src/skmultiflow/data/sea_generator.py next_sample"]}
{"id": "C99", "title": "noise_percentage is the probability of a label flip", "statement": "REFUTED: SEA flips when 0.01 + rand() <= noise_percentage, so noise below 1% never flips a label, and noise of 100% leaves the label alone whenever rand() > 0.99.", "quantifier": "every random source and history; a witness source", "why_tests_cant": "A test sees frequencies, not that the event is impossible.", "anchors": ["src/skmultiflow/data/sea_generator.py next_sample 176-180"]}
