{
 "claims": [
  {
   "property": "C01",
   "status": "proved",
   "theorems": [
    "fast_buffer_is_bounded_fifo",
    "fast_buffer_holds_most_recent"
   ],
   "note": "All histories of add_element/get_next_element/clear for capacity >= 1; capacity 0 is refuted separately (fast_buffer_zero_capacity_refuted)."
  },
  {
   "property": "C02",
   "status": "proved",
   "theorems": [
    "fast_buffer_conserves_elements"
   ],
   "note": ""
  },
  {
   "property": "C03",
   "status": "proved",
   "theorems": [
    "sliding_window_most_recent",
    "sliding_window_last_samples"
   ],
   "note": "One sample per call, as documented; batches overrun the bound (sliding_window_batch_overrun_refuted)."
  },
  {
   "property": "C04",
   "status": "partial",
   "theorems": [
    "sliding_window_rejected_sample_partial",
    "sliding_window_rejected_sample_refuted"
   ],
   "note": "REFUTED for a wrong number of targets: the features are already stored when the ValueError is raised. Proved for a wrong number of features."
  },
  {
   "property": "C05",
   "status": "proved",
   "theorems": [
    "confusion_matrix_counts",
    "confusion_matrix_accepts_inside"
   ],
   "note": "Integer weights; int64 overflow and truncation of fractional weights are not modelled."
  },
  {
   "property": "C06",
   "status": "partial",
   "theorems": [
    "confusion_matrix_grows_partial",
    "confusion_matrix_grows_refuted"
   ],
   "note": "REFUTED: np.max(i, j) at data_structures.py:433 takes j as an axis, so a new label raises AxisError unless j is 0."
  },
  {
   "property": "C07",
   "status": "proved",
   "theorems": [
    "adwin_never_raises",
    "adwin_width_is_bucket_sum"
   ],
   "note": "delete_element is only allowed on windows of at least two elements; adwin_delete_last_refuted shows what happens otherwise."
  },
  {
   "property": "C08",
   "status": "proved",
   "theorems": [
    "adwin_total_is_suffix_sum",
    "adwin_estimation_within_input_bounds"
   ],
   "note": ""
  },
  {
   "property": "C09",
   "status": "proved",
   "theorems": [
    "adwin_memory_logarithmic"
   ],
   "note": ""
  },
  {
   "property": "C10",
   "status": "proved",
   "theorems": [
    "adwin_detects_iff_shrinks",
    "adwin_never_raises"
   ],
   "note": "Termination is the Some result of adwin_never_raises / adwin_detects_iff_shrinks; only oldest elements are removed by adwin_total_is_suffix_sum."
  },
  {
   "property": "C100",
   "status": "partial",
   "theorems": [
    "agrawal_perturbed_ranges_partial",
    "agrawal_perturbed_hvalue_refuted",
    "agrawal_commission_refuted"
   ],
   "note": "REFUTED for the house value and the documented commission rule; other ranges proved (rounding is any function that stays between integer bounds)."
  },
  {
   "property": "C101",
   "status": "partial",
   "theorems": [
    "led_shows_the_digit",
    "led_features_determine_label",
    "led_drift_permutes_columns",
    "led_drift_instances_share_table_refuted",
    "led_drift_eight_features_refuted"
   ],
   "note": "REFUTED for shared tables and more than seven drifting attributes; proved otherwise."
  },
  {
   "property": "C102",
   "status": "partial",
   "theorems": [
    "hyperplane_samples",
    "hyperplane_drift_features_refuted"
   ],
   "note": "REFUTED when n_drift_features > n_features; proved otherwise."
  },
  {
   "property": "C103",
   "status": "proved",
   "theorems": [
    "waveform_mixes_two_waves"
   ],
   "note": ""
  },
  {
   "property": "C104",
   "status": "proved",
   "theorems": [
    "concept_drift_interleaves",
    "concept_drift_batches"
   ],
   "note": "Child rows are assumed to have the stream's number of features."
  },
  {
   "property": "C105",
   "status": "partial",
   "theorems": [
    "drift_schedule",
    "drift_once_selected",
    "concept_drift_alpha_width",
    "concept_drift_zero_width_refuted"
   ],
   "note": "REFUTED for width 0; proved for positive widths. alpha = 90 exactly is not covered by the width-1 clause (tan of a right angle)."
  },
  {
   "property": "C106",
   "status": "partial",
   "theorems": [
    "concept_drift_restart",
    "concept_drift_restart_last_refuted",
    "concept_drift_remaining_partial",
    "concept_drift_remaining_refuted",
    "concept_drift_shared_defaults_refuted"
   ],
   "note": "REFUTED."
  },
  {
   "property": "C107",
   "status": "partial",
   "theorems": [
    "regression_generator_reads",
    "multilabel_generator_reads",
    "regression_generator_overshoot_refuted",
    "multilabel_generator_more_refuted"
   ],
   "note": "REFUTED past the end; proved up to n_samples."
  },
  {
   "property": "C108",
   "status": "partial",
   "theorems": [
    "anomaly_sine_labels",
    "anomaly_sine_count",
    "anomaly_sine_reads",
    "anomaly_sine_zero_anomalies_refuted",
    "anomaly_sine_contextual_refuted",
    "anomaly_sine_count_refuted",
    "anomaly_sine_more_refuted"
   ],
   "note": "REFUTED in four respects; the rest proved."
  },
  {
   "property": "C109",
   "status": "partial",
   "theorems": [
    "weighted_index",
    "rbf_no_centroids_refuted"
   ],
   "note": "REFUTED without centroids; proved for every weight list with positive sum."
  },
  {
   "property": "C11",
   "status": "partial",
   "theorems": [
    "adwin_variance_exact_partial",
    "adwin_variance_upper_bound",
    "adwin_variance_refuted"
   ],
   "note": "REFUTED after dropping a bucket of level >= 2 (adwin.py:261 loses one of the two merged variances). Proved: exact while nothing was dropped, and an upper bound always."
  },
  {
   "property": "C110",
   "status": "proved",
   "theorems": [
    "rbf_samples"
   ],
   "note": "For random sources that never return exactly 0 or 1/2 (measure zero cases where numpy divides by zero)."
  },
  {
   "property": "C111",
   "status": "proved",
   "theorems": [
    "rbf_drift_moves"
   ],
   "note": "For random sources that never return exactly 0."
  },
  {
   "property": "C112",
   "status": "partial",
   "theorems": [
    "random_tree_samples",
    "random_tree_total",
    "random_tree_categorical_only_refuted"
   ],
   "note": "REFUTED for purely categorical settings; proved otherwise."
  },
  {
   "property": "C113",
   "status": "partial",
   "theorems": [
    "knn_votes_of_nearest",
    "knn_negative_labels_refuted",
    "knn_only_negative_labels_raises_refuted"
   ],
   "note": "Proved for all histories with labels that are not negative. REFUTED for negative labels: the vote of label -1 goes to the last column, or predict raises IndexError."
  },
  {
   "property": "C114",
   "status": "partial",
   "theorems": [
    "knn_regressor_single_row_partial",
    "knn_regressor_batch_refuted",
    "knn_regressor_empty_batch_raises_refuted"
   ],
   "note": "REFUTED for batches: all rows of a batch get one value (neighbours pooled), and before n_neighbors samples a batch raises ValueError. Proved for one row at a time."
  },
  {
   "property": "C115",
   "status": "proved",
   "theorems": [
    "knn_adwin_window_follows_detector",
    "knn_adwin_detector"
   ],
   "note": ""
  },
  {
   "property": "C116",
   "status": "partial",
   "theorems": [
    "knn_reset_forgets_samples_partial",
    "knn_reset_is_fresh_refuted"
   ],
   "note": "REFUTED: the labels seen before reset widen predict_proba. Proved: same window, same probability for every label, same predictions."
  },
  {
   "property": "C117",
   "status": "partial",
   "theorems": [
    "knn_small_window_always_zero_refuted"
   ],
   "note": "REFUTED: with max_window_size < n_neighbors every prediction is 0 whatever the history; the constructor accepts the pair."
  },
  {
   "property": "C118",
   "status": "proved",
   "theorems": [
    "naive_bayes_posterior"
   ],
   "note": "labels and weights not negative; classes given as lists covering the labels (otherwise C119, C120)"
  },
  {
   "property": "C119",
   "status": "partial",
   "theorems": [
    "naive_bayes_array_classes_refuted",
    "naive_bayes_array_nominal_refuted",
    "naive_bayes_array_zero_refuted"
   ],
   "note": "REFUTED: after an array of classes with more than one element every later partial_fit raises ValueError; an array for nominal_attributes raises, and array([0]) is ignored"
  },
  {
   "property": "C12",
   "status": "partial",
   "theorems": [
    "adwin_considers_every_boundary_refuted"
   ],
   "note": "REFUTED for every window with at least two rows (adwin.py:317)."
  },
  {
   "property": "C120",
   "status": "partial",
   "theorems": [
    "naive_bayes_unlisted_label_refuted"
   ],
   "note": "REFUTED: every prediction raises IndexError once a label above all given classes was learned"
  },
  {
   "property": "C121",
   "status": "proved",
   "theorems": [
    "ht_measurements"
   ],
   "note": "every configuration and number type"
  },
  {
   "property": "C122",
   "status": "proved",
   "theorems": [
    "ht_sample_is_local",
    "ht_mc_votes_local",
    "ht_paths_extend"
   ],
   "note": "object-for-object equality elsewhere needs the memory limit not to bind and no size estimate due; statistics and paths are kept always"
  },
  {
   "property": "C123",
   "status": "proved",
   "theorems": [
    "ht_sample_is_counted"
   ],
   "note": "for samples that reach a leaf; a sample that reaches a multiway split node opens a branch"
  },
  {
   "property": "C124",
   "status": "proved",
   "theorems": [
    "ht_only_grows"
   ],
   "note": ""
  },
  {
   "property": "C125",
   "status": "proved",
   "theorems": [
    "ht_memory_limit",
    "ht_promise"
   ],
   "note": "promise read over the reals as weight minus that of the majority label"
  },
  {
   "property": "C126",
   "status": "partial",
   "theorems": [
    "ht_stop_mem_management_refuted",
    "ht_stop_mem_late_refuted"
   ],
   "note": "REFUTED by two witness runs; the first stays frozen for all continuations"
  },
  {
   "property": "C127",
   "status": "proved",
   "theorems": [
    "ht_split_iff",
    "ht_split_result",
    "ht_split_leaves"
   ],
   "note": "For every ordered number type whose subtraction respects the order (instances: reals and rationals)."
  },
  {
   "property": "C128",
   "status": "partial",
   "theorems": [
    "ht_remove_poor_atts_refuted"
   ],
   "note": "REFUTED: in no state reached without an exception has the tree a decision node."
  },
  {
   "property": "C129",
   "status": "partial",
   "theorems": [
    "ht_preprune_refuted"
   ],
   "note": "REFUTED: the leaf is re-activated in the same call."
  },
  {
   "property": "C13",
   "status": "partial",
   "theorems": [
    "adwin_get_change_refuted",
    "adwin_get_change_always_false"
   ],
   "note": "REFUTED: get_change is False in every reachable state."
  },
  {
   "property": "C130",
   "status": "partial",
   "theorems": [
    "ht_one_branch_split_refuted"
   ],
   "note": "REFUTED by a run with bit-exact floats (ln by series)."
  },
  {
   "property": "C131",
   "status": "partial",
   "theorems": [
    "ht_reset_keeps_classes_refuted",
    "ht_classes_fixed"
   ],
   "note": "REFUTED: the classes never change once set."
  },
  {
   "property": "C132",
   "status": "proved",
   "theorems": [
    "dwm_members_and_weights"
   ],
   "note": "Example dwm_applies gives a reachable state."
  },
  {
   "property": "C133",
   "status": "proved",
   "theorems": [
    "dwm_sample_is_round"
   ],
   "note": "The relation round is in Spec/ExpertSpec.v."
  },
  {
   "property": "C134",
   "status": "proved",
   "theorems": [
    "dwm_never_fails",
    "dwm_never_fails_naive_bayes",
    "dwm_beta_one_refuted"
   ],
   "note": "Holds for 0 < beta < 1; beta = 1 raises TypeError (dwm_beta_one_refuted)."
  },
  {
   "property": "C135",
   "status": "partial",
   "theorems": [
    "dwm_predicts_mean",
    "mean_of_two_labels_is_majority",
    "mean_of_one_label_is_it",
    "dwm_prediction_is_vote_refuted"
   ],
   "note": "REFUTED for three labels: experts answering 0 and 2 make the ensemble predict 1. Proved: rounded weighted mean; majority for labels 0/1; unanimous label."
  },
  {
   "property": "C136",
   "status": "partial",
   "theorems": [
    "dwm_sample_weight_refuted",
    "dwm_batch_is_one_by_one"
   ],
   "note": "REFUTED: the weights of the whole batch are passed with each single row; NaiveBayes raises on every batch of two or more rows."
  },
  {
   "property": "C137",
   "status": "proved",
   "theorems": [
    "addexp_members_and_weights",
    "addexp_never_fails",
    "addexp_never_fails_naive_bayes"
   ],
   "note": ""
  },
  {
   "property": "C138",
   "status": "proved",
   "theorems": [
    "addexp_oldest"
   ],
   "note": ""
  },
  {
   "property": "C139",
   "status": "partial",
   "theorems": [
    "addexp_weakest_refuted",
    "addexp_weakest_frozen_refuted"
   ],
   "note": "REFUTED: the new expert is discarded when it is not the weakest, and kept when it is."
  },
  {
   "property": "C14",
   "status": "proved",
   "theorems": [
    "adwin_reset_is_fresh"
   ],
   "note": ""
  },
  {
   "property": "C140",
   "status": "proved",
   "theorems": [
    "ht_leaf_predictions"
   ],
   "note": "Over the reals, while the size estimate is not due; after the grace period the leaf may be split or pre-pruned (C127)."
  },
  {
   "property": "C141",
   "status": "proved",
   "theorems": [
    "ht_proba_rows"
   ],
   "note": "Over the reals. With a classes argument numpy makes an object array of rows of different lengths; the model keeps the rows."
  },
  {
   "property": "C142",
   "status": "proved",
   "theorems": [
    "ht_routing"
   ],
   "note": ""
  },
  {
   "property": "C143",
   "status": "proved",
   "theorems": [
    "ht_estimate_limit"
   ],
   "note": "Sizes are arguments of the model."
  },
  {
   "property": "C144",
   "status": "proved",
   "theorems": [
    "oza_classes_contract"
   ],
   "note": "Any sequence of calls, any base estimator and random source."
  },
  {
   "property": "C145",
   "status": "proved",
   "theorems": [
    "oza_training"
   ],
   "note": "State-level, hence for every call of every run."
  },
  {
   "property": "C146",
   "status": "proved",
   "theorems": [
    "oza_probabilities",
    "oza_failed_member_silences"
   ],
   "note": "Over R; answers of the members with one row per sample whose first row is not longer than max(classes)+1."
  },
  {
   "property": "C147",
   "status": "partial",
   "theorems": [
    "oza_reset_refuted"
   ],
   "note": "REFUTED for every state: reset of OzaBagging keeps the classes, reset of OzaBaggingADWIN keeps estimators and classes. (Leveraging bagging: reset equals the constructor, by definition of lev_new.)"
  },
  {
   "property": "C148",
   "status": "partial",
   "theorems": [
    "ozad_worst_reset_refuted"
   ],
   "note": "REFUTED: the exact description of a call shows that a member of greatest estimated accuracy is reset."
  },
  {
   "property": "C149",
   "status": "proved",
   "theorems": [
    "lev_sample"
   ],
   "note": "Over R, any detector and base estimator; the reset needs some positive estimate, which a rise gives for detectors with nonnegative estimates."
  },
  {
   "property": "C15",
   "status": "proved",
   "theorems": [
    "ddm_never_raises",
    "ddm_error_rate_exact"
   ],
   "note": "Exact arithmetic; no hypothesis on the inputs or parameters."
  },
  {
   "property": "C150",
   "status": "proved",
   "theorems": [
    "lev_sample"
   ],
   "note": "allowed and coded in Spec/BaggingSpec.v."
  },
  {
   "property": "C151",
   "status": "partial",
   "theorems": [
    "lev_codes_forever_refuted",
    "lev_codes_balanced",
    "lev_codes_two_classes"
   ],
   "note": "REFUTED for odd numbers of classes with even ensembles; accepted codes are balanced; two classes end at the first try. Termination with probability one in the other cases is not stated."
  },
  {
   "property": "C152",
   "status": "proved",
   "theorems": [
    "online_classes_contract"
   ],
   "note": "All six algorithms at once."
  },
  {
   "property": "C153",
   "status": "partial",
   "theorems": [
    "online_reset_refuted"
   ],
   "note": "REFUTED: reset keeps the classes and a new set of classes is refused."
  },
  {
   "property": "C154",
   "status": "proved",
   "theorems": [
    "boosting_row"
   ],
   "note": "Over the reals, in every reachable state."
  },
  {
   "property": "C155",
   "status": "partial",
   "theorems": [
    "boosting_votes",
    "csb2_votes",
    "rusboost_votes",
    "boosting_perfect_refuted"
   ],
   "note": "The weighted votes are proved for members whose answers have one width. REFUTED: a member without errors has weight 0; perfect members make the ensemble predict 0 for ever."
  },
  {
   "property": "C156",
   "status": "proved",
   "theorems": [
    "adac2_row",
    "adac2_votes"
   ],
   "note": "Over the reals; the votes for ensembles that were not enlarged."
  },
  {
   "property": "C157",
   "status": "partial",
   "theorems": [
    "adac2_more_classes_refuted"
   ],
   "note": "REFUTED: a member beyond n_estimators never takes part in a row that is learned without IndexError."
  },
  {
   "property": "C158",
   "status": "partial",
   "theorems": [
    "csb2_row_refuted"
   ],
   "note": "REFUTED: the rate after a right answer does not depend on the rate before, and every error is counted with cost_positive."
  },
  {
   "property": "C159",
   "status": "proved",
   "theorems": [
    "rusboost_row"
   ],
   "note": "Over the reals; the counts are per member and sample, as in the code."
  },
  {
   "property": "C16",
   "status": "proved",
   "theorems": [
    "ddm_quiet_before_minimum",
    "ddm_alarm_at_minimum"
   ],
   "note": "The bound min_num_instances - 1 is sharp (ddm_alarm_at_minimum)."
  },
  {
   "property": "C160",
   "status": "proved",
   "theorems": [
    "uobagging_row",
    "uobagging_votes"
   ],
   "note": ""
  },
  {
   "property": "C161",
   "status": "partial",
   "theorems": [
    "smote_row_refuted"
   ],
   "note": "REFUTED: the neighbour is the first positive sample, the synthetic sample extrapolates, samples are stored once per member."
  },
  {
   "property": "C162",
   "status": "partial",
   "theorems": [
    "online_drift_refuted"
   ],
   "note": "REFUTED: a member of greatest estimated accuracy is reset."
  },
  {
   "property": "C163",
   "status": "partial",
   "theorems": [
    "online_marks_refuted"
   ],
   "note": "REFUTED: r rows give each detector r*r marks."
  },
  {
   "property": "C164",
   "status": "proved",
   "theorems": [
    "online_never_fails",
    "smote_never_fails"
   ],
   "note": "AdaC2 with at most n_estimators classes."
  },
  {
   "property": "C165",
   "status": "proved",
   "theorems": [
    "multi_output_alone",
    "multi_output_independent",
    "multi_output_never_fails"
   ],
   "note": ""
  },
  {
   "property": "C166",
   "status": "partial",
   "theorems": [
    "multi_output_proba_refuted",
    "multi_output_second_class"
   ],
   "note": "REFUTED: predict_proba gives one number per output, the second column of its estimator's probabilities, and raises IndexError when an estimator knows one label; multi_output_second_class proves what it does give."
  },
  {
   "property": "C167",
   "status": "partial",
   "theorems": [
    "multi_output_signature_refuted"
   ],
   "note": "REFUTED: the test \"'sample_weight' and 'classes' in p\" only looks for classes, so an estimator whose partial_fit takes classes but not sample_weight (such as sklearn's MLPClassifier) raises TypeError at the second call."
  },
  {
   "property": "C168",
   "status": "proved",
   "theorems": [
    "chain_training",
    "chain_never_fails",
    "chain_orders"
   ],
   "note": "chain_orders: with order='random' every new chain draws its order with the next state of the generator."
  },
  {
   "property": "C169",
   "status": "proved",
   "theorems": [
    "chain_prediction"
   ],
   "note": ""
  },
  {
   "property": "C17",
   "status": "proved",
   "theorems": [
    "ddm_flags_exclusive",
    "ddm_restarts_after_change"
   ],
   "note": "Any arithmetic."
  },
  {
   "property": "C170",
   "status": "partial",
   "theorems": [
    "chain_proba",
    "chain_proba_order_refuted"
   ],
   "note": "REFUTED for order='random': the columns stay in the order of the chain. Proved for the default order."
  },
  {
   "property": "C171",
   "status": "partial",
   "theorems": [
    "pcc_mode",
    "pcc_order_refuted"
   ],
   "note": "REFUTED for order='random': the labels stay in the order of the chain. Proved for the default order."
  },
  {
   "property": "C172",
   "status": "proved",
   "theorems": [
    "mcc_best"
   ],
   "note": ""
  },
  {
   "property": "C173",
   "status": "partial",
   "theorems": [
    "multi_output_failed_call_refuted",
    "chain_failed_call_refuted"
   ],
   "note": "REFUTED: the number of targets is overwritten before the call fails, and predict raises from then on."
  },
  {
   "property": "C174",
   "status": "proved",
   "theorems": [
    "chain_reset"
   ],
   "note": ""
  },
  {
   "property": "C175",
   "status": "proved",
   "theorems": [
    "batch_windows",
    "batch_never_fails"
   ],
   "note": "All histories without weights; a history that raised is covered by C178."
  },
  {
   "property": "C176",
   "status": "partial",
   "theorems": [
    "batch_majority",
    "batch_labels_01",
    "batch_labels_refuted"
   ],
   "note": "REFUTED for labels other than 0 and 1; proved for 0 and 1."
  },
  {
   "property": "C177",
   "status": "partial",
   "theorems": [
    "batch_weights_refuted",
    "batch_last_weight_refuted"
   ],
   "note": "REFUTED: arrays of weights raise ValueError; single weights do not reach the member."
  },
  {
   "property": "C178",
   "status": "partial",
   "theorems": [
    "batch_stuck",
    "batch_failed_fit_refuted"
   ],
   "note": "REFUTED: after a failed training every later call raises IndexError."
  },
  {
   "property": "C179",
   "status": "proved",
   "theorems": [
    "awe_windows"
   ],
   "note": ""
  },
  {
   "property": "C18",
   "status": "proved",
   "theorems": [
    "eddm_never_raises",
    "eddm_distances_exact",
    "eddm_divisor_positive"
   ],
   "note": "Exact arithmetic."
  },
  {
   "property": "C180",
   "status": "proved",
   "theorems": [
    "awe_weights",
    "awe_weights_nonneg"
   ],
   "note": ""
  },
  {
   "property": "C181",
   "status": "partial",
   "theorems": [
    "awe_cross_validation",
    "awe_cross_validation_refuted"
   ],
   "note": "REFUTED for estimators whose fit is incremental; proved for those that start anew."
  },
  {
   "property": "C182",
   "status": "partial",
   "theorems": [
    "awe_vote",
    "awe_same_label",
    "awe_batch_refuted"
   ],
   "note": "REFUTED for calls with several instances; proved for one instance."
  },
  {
   "property": "C183",
   "status": "partial",
   "theorems": [
    "awe_columns_refuted",
    "awe_rare_label_refuted"
   ],
   "note": "REFUTED: the position among seen labels is used as the column."
  },
  {
   "property": "C184",
   "status": "proved",
   "theorems": [
    "awe_never_fails"
   ],
   "note": ""
  },
  {
   "property": "C185",
   "status": "proved",
   "theorems": [
    "learnpp_ensembles",
    "learnpp_errors"
   ],
   "note": "One ensemble per window; every member tested and the partial ensembles approved. Hypotheses: the history raised nothing; draws have positive probability."
  },
  {
   "property": "C186",
   "status": "proved",
   "theorems": [
    "learnpp_vote",
    "learnpp_predicts"
   ],
   "note": "Votes over the real numbers."
  },
  {
   "property": "C187",
   "status": "partial",
   "theorems": [
    "learnpp_failures",
    "learnpp_terminates",
    "learnpp_endless_refuted"
   ],
   "note": "REFUTED in general: an error equal to the threshold can loop for ever (learnpp_endless_refuted). Proved: no other failure, and termination when no measured error equals the threshold."
  },
  {
   "property": "C188",
   "status": "proved",
   "theorems": [
    "learnpp_early_stop"
   ],
   "note": ""
  },
  {
   "property": "C189",
   "status": "partial",
   "theorems": [
    "learnpp_stuck",
    "learnpp_stuck_refuted"
   ],
   "note": "REFUTED: after a failed window nothing is learned until reset (proved for every history)."
  },
  {
   "property": "C19",
   "status": "proved",
   "theorems": [
    "eddm_alarm_needs_30_errors"
   ],
   "note": "Any arithmetic."
  },
  {
   "property": "C190",
   "status": "partial",
   "theorems": [
    "learnpp_classes",
    "learnpp_reset_refuted"
   ],
   "note": "REFUTED for reset, which keeps the classes; the checks of partial_fit are proved."
  },
  {
   "property": "C191",
   "status": "partial",
   "theorems": [
    "learnpp_labels_refuted"
   ],
   "note": "REFUTED: labels other than 0..n-1."
  },
  {
   "property": "C192",
   "status": "partial",
   "theorems": [
    "nse_windows",
    "nse_size_refuted"
   ],
   "note": "Proved: windows and members for all histories. REFUTED in part: without pruning n_estimators does not bound the ensemble (nse_size_refuted), though documented as its size."
  },
  {
   "property": "C193",
   "status": "partial",
   "theorems": [
    "nse_weights",
    "nse_average_refuted"
   ],
   "note": "REFUTED as an average: the recorded weights sum to more than one for each member with a second window (nse_average_refuted). Proved: the exact weights, errors and row weights (nse_weights) for no pruning and age pruning, over the reals (division by zero is Coq's; numpy gives inf for a new member wrong on everything). Missing: error pruning."
  },
  {
   "property": "C194",
   "status": "partial",
   "theorems": [
    "nse_perfect_window",
    "nse_perfect_refuted"
   ],
   "note": "REFUTED: when the ensemble predicts a window right, every member's error on it is recorded as 0."
  },
  {
   "property": "C195",
   "status": "proved",
   "theorems": [
    "nse_error_pruning"
   ],
   "note": "Over the reals. The error of the newest member is the one measured before it is trained again, and is not cut at 1/2."
  },
  {
   "property": "C196",
   "status": "partial",
   "theorems": [
    "nse_vote",
    "nse_one_class",
    "nse_one_class_refuted",
    "nse_labels_refuted"
   ],
   "note": "REFUTED: members trained on one class vote equally for every class, and the answers are positions, not labels. Proved: the vote for positions when no member has exactly one column."
  },
  {
   "property": "C197",
   "status": "partial",
   "theorems": [
    "nse_stuck",
    "nse_stuck_refuted"
   ],
   "note": "REFUTED: after an exception every later partial_fit with rows raises until reset."
  },
  {
   "property": "C198",
   "status": "partial",
   "theorems": [
    "nse_first_call",
    "nse_classes_refuted"
   ],
   "note": "First half proved. REFUTED: different classes in later calls are ignored."
  },
  {
   "property": "C199",
   "status": "partial",
   "theorems": [
    "nse_never_fails",
    "nse_list_refuted"
   ],
   "note": "Proved for all histories when the classes are an array, or no member needs its classes placed. REFUTED: with a list, as in the documented example, a member that has seen two of three classes raises AttributeError."
  },
  {
   "property": "C20",
   "status": "proved",
   "theorems": [
    "ph_never_raises",
    "ph_decision_rule",
    "ph_restarts_after_change"
   ],
   "note": "Exact arithmetic; the restart theorem for any arithmetic."
  },
  {
   "property": "C200",
   "status": "partial",
   "theorems": [
    "pipeline_training",
    "pipeline_none_refuted",
    "pipeline_fit_transform_refuted",
    "pipeline_fit"
   ],
   "note": "Proved (both directions) for transforms with fit, partial_fit(classes=) and transform. REFUTED: a None step makes fit and partial_fit raise; a transform with fit_transform but no partial_fit_transform makes partial_fit raise."
  },
  {
   "property": "C201",
   "status": "proved",
   "theorems": [
    "pipeline_prediction"
   ],
   "note": "A method that raises is assumed to leave its object as it was."
  },
  {
   "property": "C202",
   "status": "partial",
   "theorems": [
    "pipeline_refused",
    "pipeline_empty",
    "pipeline_stream_transforms_refuted",
    "pipeline_final_refuted"
   ],
   "note": "REFUTED: transforms with partial_fit and transform but no fit, as the scalers and the cleaner of the library, are refused; a last step without partial_fit is accepted. The exact condition is proved (pipeline_refused)."
  },
  {
   "property": "C203",
   "status": "partial",
   "theorems": [
    "pipeline_atomic_refuted"
   ],
   "note": "REFUTED: earlier steps have learned when a later one raises."
  },
  {
   "property": "C204",
   "status": "partial",
   "theorems": [
    "pipeline_fit_predict",
    "pipeline_fit_predict_refuted"
   ],
   "note": "Proved for a call without classes. REFUTED: estimators that need the classes in the first call fail."
  },
  {
   "property": "C205",
   "status": "proved",
   "theorems": [
    "pipeline_named",
    "pipeline_named_last"
   ],
   "note": ""
  },
  {
   "property": "C206",
   "status": "partial",
   "theorems": [
    "hst_masses",
    "hst_reference_window",
    "hst_window_refuted"
   ],
   "note": "REFUTED for the first windows: the first instance is forgotten and from w+1 to 2w instances the reference masses count one instance; the counts themselves are proved for every history"
  },
  {
   "property": "C207",
   "status": "partial",
   "theorems": [
    "hst_blind_refuted"
   ],
   "note": "REFUTED: from w+2 to 2w instances every instance gets the same probability (size limit at least 1)"
  },
  {
   "property": "C208",
   "status": "proved",
   "theorems": [
    "hst_probabilities"
   ],
   "note": "over the reals"
  },
  {
   "property": "C209",
   "status": "partial",
   "theorems": [
    "hst_predict_one",
    "hst_predict_refuted"
   ],
   "note": "REFUTED for batches: every row gets the answer of the first row; proved for single instances"
  },
  {
   "property": "C21",
   "status": "proved",
   "theorems": [
    "kswin_window_bounded_suffix",
    "kswin_window_step"
   ],
   "note": "Any arithmetic, any random sample, any test result."
  },
  {
   "property": "C210",
   "status": "partial",
   "theorems": [
    "hst_trees",
    "hst_last_feature_refuted",
    "hst_halves_refuted"
   ],
   "note": "REFUTED: the last feature is never split on, and splits do not halve their node's region; full trees, cuts inside the region and work ranges are proved"
  },
  {
   "property": "C211",
   "status": "partial",
   "theorems": [
    "hst_never_fails",
    "hst_one_feature_refuted"
   ],
   "note": "REFUTED for a single feature"
  },
  {
   "property": "C212",
   "status": "proved",
   "theorems": [
    "arf_rows_counted",
    "arf_trees",
    "arf_background"
   ],
   "note": "Example arf_trees_applies shows a run with a warning, a drift and a second warning."
  },
  {
   "property": "C213",
   "status": "proved",
   "theorems": [
    "arf_evaluator"
   ],
   "note": ""
  },
  {
   "property": "C214",
   "status": "partial",
   "theorems": [
    "arf_weights_refuted",
    "arf_weight_array_refuted",
    "arf_no_rows"
   ],
   "note": "REFUTED: sample weights do not reach the trees, and arrays of weights raise ValueError."
  },
  {
   "property": "C215",
   "status": "partial",
   "theorems": [
    "arf_max_features",
    "arf_reset_refuted"
   ],
   "note": "The range is proved; REFUTED: reset keeps the number computed from the first data, and the classes."
  },
  {
   "property": "C216",
   "status": "partial",
   "theorems": [
    "arf_unknown_label_refuted",
    "arf_unknown_label_met"
   ],
   "note": "REFUTED: IndexError."
  },
  {
   "property": "C217",
   "status": "partial",
   "theorems": [
    "arf_votes",
    "arf_zero_power_refuted",
    "arf_vote_refuted",
    "arf_kappa_refuted"
   ],
   "note": "The combination of votes is proved for a positive total power; REFUTED: power 1 for accuracy 0; negative votes with kappa."
  },
  {
   "property": "C218",
   "status": "proved",
   "theorems": [
    "arf_detectors"
   ],
   "note": ""
  },
  {
   "property": "C219",
   "status": "proved",
   "theorems": [
    "arfr_rows_counted",
    "arfr_trees",
    "arfr_background"
   ],
   "note": "Trees, detectors, evaluators and generators are arguments; a history ends when a method raises."
  },
  {
   "property": "C22",
   "status": "partial",
   "theorems": [
    "kswin_accepts_streams_partial",
    "kswin_accepts_refuted",
    "kswin_constructor_accepts"
   ],
   "note": "REFUTED: the constructor accepts stat_size < 1 and window_size < stat_size + 2, and every such detector raises on every stream of more than window_size elements; all other accepted configurations never raise."
  },
  {
   "property": "C220",
   "status": "proved",
   "theorems": [
    "arfr_detectors",
    "arfr_watched"
   ],
   "note": ""
  },
  {
   "property": "C221",
   "status": "partial",
   "theorems": [
    "arfr_normalized",
    "arfr_normalized_range",
    "arfr_normalized_refuted"
   ],
   "note": "REFUTED from the eleventh value on: ten equal values and a greater one give a number above 1. Proved: the number is the standard score moved to [0, 1], and it is between 0 and 1 for the first ten values. Over the reals."
  },
  {
   "property": "C222",
   "status": "partial",
   "theorems": [
    "arfr_max_features",
    "arfr_fraction_refused",
    "arfr_reset_refuted"
   ],
   "note": "REFUTED for reset: reset sets max_features to 0, and the trees made afterwards look at one feature whatever was configured. The other parts are proved."
  },
  {
   "property": "C223",
   "status": "partial",
   "theorems": [
    "arfr_weighted",
    "arfr_prediction_range",
    "arfr_median",
    "arfr_no_errors",
    "arfr_single_tree_refuted",
    "arfr_new_tree_refuted"
   ],
   "note": "REFUTED for a single tree with an error (nan) and for new trees: a tree just made has the error 0 and the greatest weight. The rest is proved over the reals, for at least two trees."
  },
  {
   "property": "C224",
   "status": "proved",
   "theorems": [
    "srp_rows_counted",
    "srp_estimators",
    "srp_background"
   ],
   "note": ""
  },
  {
   "property": "C225",
   "status": "proved",
   "theorems": [
    "srp_evaluator",
    "srp_detectors"
   ],
   "note": ""
  },
  {
   "property": "C226",
   "status": "partial",
   "theorems": [
    "srp_features",
    "srp_subspaces_distinct",
    "srp_all_combinations",
    "srp_endless_refuted",
    "srp_default_endless_refuted",
    "srp_first_features_refuted",
    "srp_negative_size"
   ],
   "note": "sizes, distinctness and completeness of the combinations are proved; REFUTED that making them ends (with the default settings and 3 to 8 features the first call never returns) and that they are chosen at random (the first combinations in lexicographic order are used, so that with the defaults and 20 features every member has the features 0 to 8)"
  },
  {
   "property": "C227",
   "status": "partial",
   "theorems": [
    "srp_method_refuted"
   ],
   "note": "REFUTED: if a subspace would have no features or all, the method becomes resampling for good; reset does not restore it"
  },
  {
   "property": "C228",
   "status": "partial",
   "theorems": [
    "srp_estimators",
    "srp_nominal_refuted",
    "srp_nominal_resampling_refuted"
   ],
   "note": "proved with random subspaces and patches unless the estimator was made at the drift itself; REFUTED when a warning and a drift coincide, and with resampling"
  },
  {
   "property": "C229",
   "status": "partial",
   "theorems": [
    "srp_weights_refuted"
   ],
   "note": "REFUTED: the weights reach the evaluators only"
  },
  {
   "property": "C23",
   "status": "proved",
   "theorems": [
    "hddm_a_never_raises",
    "hddm_a_is_textbook_test",
    "hddm_a_blocks_end_the_stream"
   ],
   "note": "Exact arithmetic."
  },
  {
   "property": "C230",
   "status": "partial",
   "theorems": [
    "srp_votes",
    "srp_answers_untrained",
    "srp_probabilities_refuted",
    "srp_zero_accuracy_refuted",
    "srp_ragged_refuted"
   ],
   "note": "the sum and the answer are proved for one instance; REFUTED that the numbers are probabilities, that accuracy 0 weighs least, and that several instances can be asked at once"
  },
  {
   "property": "C231",
   "status": "proved",
   "theorems": [
    "get_params_paths",
    "get_params_answers",
    "get_params_inside_itself"
   ],
   "note": ""
  },
  {
   "property": "C232",
   "status": "proved",
   "theorems": [
    "set_params_plain",
    "set_params_nested"
   ],
   "note": ""
  },
  {
   "property": "C233",
   "status": "proved",
   "theorems": [
    "set_params_same"
   ],
   "note": ""
  },
  {
   "property": "C234",
   "status": "proved",
   "theorems": [
    "set_params_component"
   ],
   "note": ""
  },
  {
   "property": "C235",
   "status": "partial",
   "theorems": [
    "set_params_unknown",
    "set_params_undone_refuted",
    "set_params_inside_value"
   ],
   "note": "REFUTED: earlier parameters stay set; proved that an unknown first name changes nothing."
  },
  {
   "property": "C236",
   "status": "proved",
   "theorems": [
    "clone_is_copy",
    "clone_exists",
    "clone_refuses"
   ],
   "note": "Constructors are arguments; those that change existing objects are outside."
  },
  {
   "property": "C237",
   "status": "partial",
   "theorems": [
    "clone_random_patches_refuted",
    "get_params_ddm_refuted",
    "clone_ddm_refuted",
    "set_params_ddm_refuted"
   ],
   "note": "REFUTED for DDM and StreamingRandomPatchesClassifier."
  },
  {
   "property": "C238",
   "status": "proved",
   "theorems": [
    "htr_measurements"
   ],
   "note": ""
  },
  {
   "property": "C239",
   "status": "proved",
   "theorems": [
    "htr_sample_is_local",
    "htr_mean_elsewhere"
   ],
   "note": ""
  },
  {
   "property": "C24",
   "status": "partial",
   "theorems": [
    "hddm_w_two_side_refuted"
   ],
   "note": "REFUTED for every stream and configuration: two_side_option has no effect."
  },
  {
   "property": "C240",
   "status": "proved",
   "theorems": [
    "htr_sample_is_counted"
   ],
   "note": ""
  },
  {
   "property": "C241",
   "status": "proved",
   "theorems": [
    "htr_only_grows",
    "htr_paths_extend"
   ],
   "note": ""
  },
  {
   "property": "C242",
   "status": "proved",
   "theorems": [
    "htr_mean_in_range"
   ],
   "note": "over the reals"
  },
  {
   "property": "C243",
   "status": "proved",
   "theorems": [
    "htr_split_iff",
    "htr_split_result"
   ],
   "note": "merits are assumed to be defined numbers"
  },
  {
   "property": "C244",
   "status": "proved",
   "theorems": [
    "htr_perceptron_normalised",
    "htr_perceptron_in_range"
   ],
   "note": "over the reals; needs int(weight) >= 1 and a number of attributes other than one (see C245, C248)"
  },
  {
   "property": "C245",
   "status": "partial",
   "theorems": [
    "htr_sums_right",
    "htr_sd_right",
    "htr_standardises",
    "htr_one_attribute_refuted",
    "htr_one_attribute_run_refuted"
   ],
   "note": "proved for any number of attributes but one, normalize_sample included; REFUTED for one attribute"
  },
  {
   "property": "C246",
   "status": "partial",
   "theorems": [
    "htr_mean_reset",
    "htr_reset_keeps_sums_refuted",
    "htr_reset_predict_refuted"
   ],
   "note": "proved for mean leaves; REFUTED for perceptron leaves"
  },
  {
   "property": "C247",
   "status": "partial",
   "theorems": [
    "htr_predict_rows",
    "htr_untrained_predict_refuted"
   ],
   "note": "REFUTED before training"
  },
  {
   "property": "C248",
   "status": "partial",
   "theorems": [
    "htr_light_samples_refuted",
    "htr_light_run_refuted"
   ],
   "note": "REFUTED: int(weight) updates"
  },
  {
   "property": "C249",
   "status": "partial",
   "theorems": [
    "htr_remove_poor_atts_refuted",
    "htr_single_suggestion_refuted"
   ],
   "note": "REFUTED by two runs"
  },
  {
   "property": "C25",
   "status": "proved",
   "theorems": [
    "hddm_w_never_raises",
    "hddm_w_estimation_is_ewma",
    "hddm_w_flags_exclusive"
   ],
   "note": "Exact arithmetic, values >= 0 (negative values are taken for an unset estimator); right after a change the estimation is 0."
  },
  {
   "property": "C250",
   "status": "proved",
   "theorems": [
    "rs_predict_nearest"
   ],
   "note": "Over the reals."
  },
  {
   "property": "C251",
   "status": "partial",
   "theorems": [
    "rs_predict_declared",
    "rs_unseen_class_refuted"
   ],
   "note": "Proved once every declared class was seen. REFUTED otherwise: a declared class without samples has prototypes and labels of uninitialised memory, and predict can answer any integer."
  },
  {
   "property": "C252",
   "status": "proved",
   "theorems": [
    "rs_training"
   ],
   "note": "The predicate start in the statement of rs_training."
  },
  {
   "property": "C253",
   "status": "partial",
   "theorems": [
    "rs_training",
    "rs_never_fails",
    "rs_first_call",
    "rs_step_distances",
    "rs_small_sigma_refuted"
   ],
   "note": "Vanilla gradient descent. Steps proved for every sigma; distances for sigma >= 1/2. REFUTED for sigma <= 1/4 with one prototype per class: the attracted prototype ends farther from the sample. The interval between is open (it depends on the posterior)."
  },
  {
   "property": "C254",
   "status": "proved",
   "theorems": [
    "rs_adadelta_direction",
    "rs_adadelta_run"
   ],
   "note": "Over the reals; the numpy operations are modelled coordinate by coordinate."
  },
  {
   "property": "C255",
   "status": "partial",
   "theorems": [
    "rs_unknown_label",
    "rs_labels_from_zero",
    "rs_first_unknown_refuted",
    "rs_classes_array_refuted"
   ],
   "note": "REFUTED for the first call (a label outside the given classes is an UnboundLocalError) and for classes given as an array of two or more (ValueError, although the documentation asks for an ndarray)."
  },
  {
   "property": "C256",
   "status": "partial",
   "theorems": [
    "rs_list_protos_forget_refuted",
    "rs_array_protos_trained_in_place",
    "rs_array_protos_changed_refuted"
   ],
   "note": "REFUTED: with a list every call starts again from the initial prototypes; with an array the array of the user is trained in place."
  },
  {
   "property": "C257",
   "status": "partial",
   "theorems": [
    "rs_prototypes_list_refuted",
    "rs_sigma_zero_refuted"
   ],
   "note": "REFUTED: sigma = 0 raises ZeroDivisionError, a list of prototypes per class raises TypeError."
  },
  {
   "property": "C258",
   "status": "proved",
   "theorems": [
    "rs_batches"
   ],
   "note": ""
  },
  {
   "property": "C259",
   "status": "partial",
   "theorems": [
    "sam_stm_answer",
    "sam_answer_is_label",
    "sam_answer_is_label_refuted"
   ],
   "note": "Neighbours and elections proved; REFUTED for labels outside -128..127"
  },
  {
   "property": "C26",
   "status": "proved",
   "theorems": [
    "reset_equals_new",
    "kswin_reset_equals_new"
   ],
   "note": "Any arithmetic; ADWIN is C14."
  },
  {
   "property": "C260",
   "status": "proved",
   "theorems": [
    "sam_best_memory"
   ],
   "note": "Every reachable state with n_neighbors samples in both memories"
  },
  {
   "property": "C261",
   "status": "proved",
   "theorems": [
    "sam_stm_is_recent",
    "sam_without_ltm",
    "sam_batches"
   ],
   "note": ""
  },
  {
   "property": "C262",
   "status": "proved",
   "theorems": [
    "sam_predict_total",
    "sam_predict_rows"
   ],
   "note": ""
  },
  {
   "property": "C263",
   "status": "partial",
   "theorems": [
    "sam_size_bounded_partial",
    "sam_size_bounded_refuted"
   ],
   "note": "Proved if the labels are few; REFUTED with more labels than the long-term memory may hold"
  },
  {
   "property": "C264",
   "status": "partial",
   "theorems": [
    "sam_fit_total_partial",
    "sam_fixed_window_refuted"
   ],
   "note": "Proved for maxACC; REFUTED for stm_size_option=None; maxACCApprox not covered"
  },
  {
   "property": "C265",
   "status": "proved",
   "theorems": [
    "sam_cleaning",
    "sam_cleans_ltm"
   ],
   "note": ""
  },
  {
   "property": "C266",
   "status": "partial",
   "theorems": [
    "sam_window_choice_partial",
    "sam_distances_kept",
    "sam_window_choice_refuted"
   ],
   "note": "Exact for one call; REFUTED for runs"
  },
  {
   "property": "C267",
   "status": "partial",
   "theorems": [
    "sam_small_min_size_refuted"
   ],
   "note": "REFUTED for every stream"
  },
  {
   "property": "C268",
   "status": "proved",
   "theorems": [
    "efdt_root_statistics"
   ],
   "note": "over the reals; the weights are those the call in fact uses (C269)"
  },
  {
   "property": "C269",
   "status": "partial",
   "theorems": [
    "efdt_sample_weights_refuted",
    "efdt_sample_weights_run_refuted",
    "efdt_one_by_one"
   ],
   "note": "REFUTED: with two or more rows every sample has the weight of the first; efdt_one_by_one states what a call does instead"
  },
  {
   "property": "C27",
   "status": "proved",
   "theorems": [
    "evaluator_counts"
   ],
   "note": ""
  },
  {
   "property": "C270",
   "status": "partial",
   "theorems": [
    "efdt_counters_partial",
    "efdt_counters_refuted"
   ],
   "note": "proved for two-branch splits and memory that does not bind; REFUTED with inactive leaves"
  },
  {
   "property": "C271",
   "status": "proved",
   "theorems": [
    "efdt_leaf_split_rule",
    "efdt_kill_rule"
   ],
   "note": "for ordered numbers; the replacement of a split by another split is not stated as an equivalence"
  },
  {
   "property": "C272",
   "status": "partial",
   "theorems": [
    "efdt_useless_splits_refuted"
   ],
   "note": "REFUTED by a run with default settings"
  },
  {
   "property": "C273",
   "status": "partial",
   "theorems": [
    "efdt_stays_due_refuted",
    "efdt_reevaluation_run_refuted"
   ],
   "note": "REFUTED: once due, a node is re-evaluated at every sample"
  },
  {
   "property": "C274",
   "status": "partial",
   "theorems": [
    "efdt_retest_refuted"
   ],
   "note": "REFUTED by a run with default settings"
  },
  {
   "property": "C275",
   "status": "proved",
   "theorems": [
    "efdt_classes_fixed"
   ],
   "note": ""
  },
  {
   "property": "C276",
   "status": "proved",
   "theorems": [
    "efdt_proba_rows"
   ],
   "note": "labels are not negative and listed once in the votes"
  },
  {
   "property": "C277",
   "status": "proved",
   "theorems": [
    "vfdr_ordered_learning",
    "vfdr_unordered_learning"
   ],
   "note": "Fitting (counted, revised, created) is specified in Spec/VfdrSpec.v."
  },
  {
   "property": "C278",
   "status": "partial",
   "theorems": [
    "vfdr_max_rules",
    "vfdr_max_rules_refuted",
    "vfdr_foil_no_new_rules"
   ],
   "note": "REFUTED for foil_gain: max_rules = 1 and two rules after two samples. Proved for information gain and Hellinger distance for all histories."
  },
  {
   "property": "C279",
   "status": "proved",
   "theorems": [
    "vfdr_best_suggestion"
   ],
   "note": "The merits of candidates depend on the memory the criterion has collected from the candidates before them; the statement says so."
  },
  {
   "property": "C28",
   "status": "partial",
   "theorems": [
    "accuracy_fraction_partial",
    "accuracy_order_independent",
    "accuracy_weighted_refuted"
   ],
   "note": "REFUTED for weights other than 1: accuracy is weight of correct results over number of results, so it can exceed 1. Proved for unit weights; order independence for all weights."
  },
  {
   "property": "C280",
   "status": "partial",
   "theorems": [
    "vfdr_narrows",
    "vfdr_repeated_condition_refuted"
   ],
   "note": "REFUTED for repeated != conditions (run); narrowing is proved for conditions that are new or tighten a bound."
  },
  {
   "property": "C281",
   "status": "partial",
   "theorems": [
    "vfdr_first_side",
    "vfdr_later_side",
    "vfdr_kept_side_refuted",
    "vfdr_hellinger"
   ],
   "note": "REFUTED by a run in which a rule keeps {0:50, 1:10} although the other half is {0:5, 1:331}."
  },
  {
   "property": "C282",
   "status": "partial",
   "theorems": [
    "vfdr_foil_gain_refuted",
    "vfdr_foil_side_refuted",
    "vfdr_foil_rule_refuted",
    "vfdr_foil_stale_refuted"
   ],
   "note": "REFUTED over all distributions over R and by runs."
  },
  {
   "property": "C283",
   "status": "partial",
   "theorems": [
    "vfdr_drift_input_refuted",
    "vfdr_wrong_rule_stays_refuted",
    "vfdr_removal_loses_sample_refuted",
    "vfdr_removal_skips_refuted",
    "vfdr_drift_run_refuted",
    "vfdr_skipped_run_refuted"
   ],
   "note": "REFUTED for every detector, with DDM for every length of run."
  },
  {
   "property": "C284",
   "status": "partial",
   "theorems": [
    "vfdr_lone_suggestion_refuted"
   ],
   "note": "REFUTED by a run."
  },
  {
   "property": "C285",
   "status": "proved",
   "theorems": [
    "vfdr_first_hit",
    "vfdr_ordered_first_hit"
   ],
   "note": ""
  },
  {
   "property": "C286",
   "status": "proved",
   "theorems": [
    "vfdr_weighted_max"
   ],
   "note": "Over R."
  },
  {
   "property": "C287",
   "status": "partial",
   "theorems": [
    "vfdr_weighted_sum",
    "vfdr_weighted_sum_refuted",
    "vfdr_weighted_sum_run_refuted"
   ],
   "note": "REFUTED: proved to be the halving average instead."
  },
  {
   "property": "C288",
   "status": "partial",
   "theorems": [
    "vfdr_proba_rows",
    "vfdr_row_length",
    "vfdr_ragged_rows_refuted"
   ],
   "note": "REFUTED for the shape; the entries are proved."
  },
  {
   "property": "C289",
   "status": "partial",
   "theorems": [
    "vfdr_disabled_votes_refuted",
    "vfdr_poor_attributes_refuted",
    "vfdr_inherited_labels_refuted",
    "vfdr_poor_attributes"
   ],
   "note": "REFUTED in general and by runs."
  },
  {
   "property": "C29",
   "status": "proved",
   "theorems": [
    "evaluator_scores_in_range"
   ],
   "note": "Geometric mean stated for non-negative labels."
  },
  {
   "property": "C290",
   "status": "proved",
   "theorems": [
    "vfdr_batches",
    "vfdr_zero_weight"
   ],
   "note": ""
  },
  {
   "property": "C291",
   "status": "proved",
   "theorems": [
    "vfdr_votes_labels"
   ],
   "note": ""
  },
  {
   "property": "C292",
   "status": "partial",
   "theorems": [
    "vfdr_reset_is_new",
    "vfdr_describe_new_refuted",
    "vfdr_get_rules_refuted"
   ],
   "note": "REFUTED for descriptions."
  },
  {
   "property": "C293",
   "status": "proved",
   "theorems": [
    "hat_alternates_are_leaves"
   ],
   "note": "Invariant over all histories, numbers and detectors."
  },
  {
   "property": "C294",
   "status": "partial",
   "theorems": [
    "hat_counters_partial",
    "hat_counters_switch_refuted",
    "hat_counters_reset_refuted"
   ],
   "note": "REFUTED after a switch and after reset; proved before the first alternate tree."
  },
  {
   "property": "C295",
   "status": "partial",
   "theorems": [
    "hat_never_inactive",
    "hat_inactive_refuted"
   ],
   "note": "REFUTED with stop_mem_management; proved without, for all histories."
  },
  {
   "property": "C296",
   "status": "partial",
   "theorems": [
    "hat_answers",
    "hat_answers_always",
    "hat_unseen_value_refuted"
   ],
   "note": "REFUTED for unseen nominal values; otherwise proved."
  },
  {
   "property": "C297",
   "status": "proved",
   "theorems": [
    "hat_error_weights_unseen"
   ],
   "note": "stop_mem_management=False."
  },
  {
   "property": "C298",
   "status": "proved",
   "theorems": [
    "hat_alternate_fate",
    "hat_bound_value"
   ],
   "note": "As long as learning the sample does not itself end in a split of the alternate tree (C299) and the sample has a branch."
  },
  {
   "property": "C299",
   "status": "partial",
   "theorems": [
    "hat_takeover_refuted",
    "hat_other_branches"
   ],
   "note": "REFUTED by a float run with ADWIN."
  },
  {
   "property": "C30",
   "status": "proved",
   "theorems": [
    "windowed_evaluator_equals_fresh",
    "windowed_evaluator_scores",
    "windowed_negative_weight_refuted"
   ],
   "note": "Proved for all positive weights; windowed_negative_weight_refuted shows why weights must be positive."
  },
  {
   "property": "C300",
   "status": "partial",
   "theorems": [
    "hat_bootstrap_weight",
    "hat_bootstrap_refuted"
   ],
   "note": "REFUTED: the weight that is used instead is proved for all leaves and draws."
  },
  {
   "property": "C301",
   "status": "partial",
   "theorems": [
    "hat_nb_threshold_refuted"
   ],
   "note": "REFUTED for all histories."
  },
  {
   "property": "C302",
   "status": "proved",
   "theorems": [
    "ht_votes_labels"
   ],
   "note": "For all number types, 64-bit floats included."
  },
  {
   "property": "C303",
   "status": "proved",
   "theorems": [
    "lc_numbers"
   ],
   "note": "Through the texts the code builds: str, int(.,2), binary format."
  },
  {
   "property": "C304",
   "status": "proved",
   "theorems": [
    "lc_is_hoeffding"
   ],
   "note": "For all number types."
  },
  {
   "property": "C305",
   "status": "proved",
   "theorems": [
    "lc_is_hoeffding",
    "lc_untrained"
   ],
   "note": "For all number types."
  },
  {
   "property": "C306",
   "status": "proved",
   "theorems": [
    "ht_votes_not_negative",
    "ht_predicts_taught",
    "lc_predicts_taught"
   ],
   "note": "Real arithmetic; the normal distribution function is any function that is not negative."
  },
  {
   "property": "C307",
   "status": "partial",
   "theorems": [
    "lc_labels_refuted"
   ],
   "note": "REFUTED by runs."
  },
  {
   "property": "C308",
   "status": "proved",
   "theorems": [
    "ht_prediction_same_tree",
    "ht_mc_nb_alike"
   ],
   "note": "For all number types, 64-bit floats included."
  },
  {
   "property": "C309",
   "status": "proved",
   "theorems": [
    "htr_prediction_same_tree"
   ],
   "note": "For all number types."
  },
  {
   "property": "C31",
   "status": "proved",
   "theorems": [
    "kappa_is_cohens"
   ],
   "note": ""
  },
  {
   "property": "C310",
   "status": "proved",
   "theorems": [
    "arf_leaf_watches",
    "arf_leaf_keeps",
    "arfr_leaf_watches",
    "arfr_leaf_keeps"
   ],
   "note": "For all number types. The generator is any that answers max_features distinct indices below n."
  },
  {
   "property": "C311",
   "status": "proved",
   "theorems": [
    "arf_splits_on_watched"
   ],
   "note": "For all number types."
  },
  {
   "property": "C312",
   "status": "proved",
   "theorems": [
    "arf_unwatched_irrelevant"
   ],
   "note": "All leaf kinds, all number types."
  },
  {
   "property": "C313",
   "status": "proved",
   "theorems": [
    "arf_full_is_hoeffding"
   ],
   "note": "For all number types."
  },
  {
   "property": "C314",
   "status": "proved",
   "theorems": [
    "arf_too_many",
    "arfr_too_many"
   ],
   "note": "numpy's check of choice is described in the model."
  },
  {
   "property": "C315",
   "status": "proved",
   "theorems": [
    "arf_measurements",
    "arf_only_grows"
   ],
   "note": "For all number types."
  },
  {
   "property": "C316",
   "status": "partial",
   "theorems": [
    "arf_poor_refuted"
   ],
   "note": "REFUTED by a run on floats."
  },
  {
   "property": "C317",
   "status": "proved",
   "theorems": [
    "arfr_unwatched_irrelevant"
   ],
   "note": "Perceptron leaves read all attributes and are excluded. All number types."
  },
  {
   "property": "C318",
   "status": "proved",
   "theorems": [
    "arfr_full_is_hoeffding"
   ],
   "note": "For all number types."
  },
  {
   "property": "C319",
   "status": "proved",
   "theorems": [
    "ht_new_leaf_waits",
    "htr_new_leaf_waits"
   ],
   "note": "For all number types, 64-bit floats included."
  },
  {
   "property": "C32",
   "status": "partial",
   "theorems": [
    "f1_of_class_partial",
    "f1_binary_class0_refuted"
   ],
   "note": "REFUTED: with two classes f1_score(0) returns the F1 of class 1. Proved for every other case."
  },
  {
   "property": "C320",
   "status": "proved",
   "theorems": [
    "mt_measurements"
   ],
   "note": "All number types; sizes of nodes are arguments."
  },
  {
   "property": "C321",
   "status": "proved",
   "theorems": [
    "mt_sample_is_local",
    "mt_sample_is_counted"
   ],
   "note": "All number types."
  },
  {
   "property": "C322",
   "status": "proved",
   "theorems": [
    "mt_only_grows",
    "mt_paths_extend"
   ],
   "note": "All number types."
  },
  {
   "property": "C323",
   "status": "proved",
   "theorems": [
    "mt_split_iff",
    "mt_split_result"
   ],
   "note": "Number types with an order and a monotone division; merits defined."
  },
  {
   "property": "C324",
   "status": "partial",
   "theorems": [
    "mt_predict_rows",
    "mt_untrained_predict_refuted"
   ],
   "note": "REFUTED for a tree that was never trained."
  },
  {
   "property": "C325",
   "status": "proved",
   "theorems": [
    "mt_same_tree"
   ],
   "note": "All number types."
  },
  {
   "property": "C326",
   "status": "proved",
   "theorems": [
    "isoup_adaptive_between",
    "sst_adaptive_between"
   ],
   "note": "The stacked tree once the total weight exceeds one."
  },
  {
   "property": "C327",
   "status": "proved",
   "theorems": [
    "isoup_target_order"
   ],
   "note": "Over the reals: floating-point sums depend on the order. No memory estimates."
  },
  {
   "property": "C328",
   "status": "proved",
   "theorems": [
    "isoup_mean_in_range",
    "mt_sums_right",
    "isoup_weights_norm",
    "isoup_perceptron_in_range"
   ],
   "note": "Over the reals."
  },
  {
   "property": "C329",
   "status": "partial",
   "theorems": [
    "mt_mean_reset",
    "mt_reset_refuted"
   ],
   "note": "REFUTED for predict right after reset() and for the sums."
  },
  {
   "property": "C33",
   "status": "partial",
   "theorems": [
    "evaluator_reset_fresh",
    "windowed_reset_refuted",
    "multilabel_matrix_reset",
    "multilabel_reset_refuted"
   ],
   "note": "REFUTED for the windowed and multi-label evaluators (reset forgets n_classes / n_labels). Proved for ClassificationPerformanceEvaluator, ConfusionMatrix and MultiLabelConfusionMatrix."
  },
  {
   "property": "C330",
   "status": "proved",
   "theorems": [
    "hatr_alternates_are_leaves"
   ],
   "note": "All number types."
  },
  {
   "property": "C331",
   "status": "proved",
   "theorems": [
    "hatr_answers",
    "hatr_mean_answer"
   ],
   "note": "All number types. A leaf that was replaced by an inactive leaf raises TypeError; a mean leaf without weight answers 0."
  },
  {
   "property": "C332",
   "status": "proved",
   "theorems": [
    "hatr_alternate_fate",
    "hatr_bound_value",
    "hatr_bound_beyond"
   ],
   "note": "Samples whose lesson to the alternate leaf does not end in a split. The values of the bound are over the reals."
  },
  {
   "property": "C333",
   "status": "proved",
   "theorems": [
    "hatr_other_branches"
   ],
   "note": "All number types."
  },
  {
   "property": "C334",
   "status": "proved",
   "theorems": [
    "hatr_bootstrap_weight"
   ],
   "note": "All number types. A draw of 0 does not leave the sample out."
  },
  {
   "property": "C335",
   "status": "partial",
   "theorems": [
    "hatr_detector_told",
    "hatr_spread",
    "hatr_score_range_partial",
    "hatr_score_range_refuted",
    "hatr_told_refuted"
   ],
   "note": "REFUTED that the monitored error stays in [0, 1], as ADWIN's bound needs. What is told is proved for leaves whose predictions were numbers, which mean leaves always give."
  },
  {
   "property": "C336",
   "status": "partial",
   "theorems": [
    "hatr_one_attribute_refuted",
    "htr_one_attribute"
   ],
   "note": "REFUTED, with a run in 64-bit floats."
  },
  {
   "property": "C337",
   "status": "partial",
   "theorems": [
    "hatr_reset_refuted"
   ],
   "note": "REFUTED, with a run in 64-bit floats."
  },
  {
   "property": "C338",
   "status": "proved",
   "theorems": [
    "hatr_is_htr"
   ],
   "note": "The first weights of each perceptron are those a generator draws first, in both trees."
  },
  {
   "property": "C339",
   "status": "proved",
   "theorems": [
    "hatr_mean_in_range"
   ],
   "note": "Over R. The other answer, 0, is that of a tree before the first sample and of a leaf whose statistics have no positive weight."
  },
  {
   "property": "C34",
   "status": "partial",
   "theorems": [
    "hamming_counts_common_ones_partial",
    "hamming_score_refuted"
   ],
   "note": "REFUTED: hamming_score counts only labels predicted 1 correctly; nan before any sample. The exact value computed is proved."
  },
  {
   "property": "C340",
   "status": "proved",
   "theorems": [
    "isoup_adaptive_choice"
   ],
   "note": "Over R. The passes and their errors are described by a separate specification of a leaf's life."
  },
  {
   "property": "C341",
   "status": "proved",
   "theorems": [
    "sst_adaptive_choice"
   ],
   "note": "Over R, where the three faded errors are numbers."
  },
  {
   "property": "C342",
   "status": "proved",
   "theorems": [
    "rules_are_leaves",
    "rules_cover_refuted"
   ],
   "note": "exact over the reals; rules_cover_refuted is the NaN case on floats"
  },
  {
   "property": "C343",
   "status": "proved",
   "theorems": [
    "rules_one_per_leaf",
    "rules_exist_refuted"
   ],
   "note": "rules_exist_refuted gives a reached tree on which the call raises"
  },
  {
   "property": "C344",
   "status": "proved",
   "theorems": [
    "rule_class_is_predicted"
   ],
   "note": ""
  },
  {
   "property": "C345",
   "status": "proved",
   "theorems": [
    "config_single"
   ],
   "note": ""
  },
  {
   "property": "C346",
   "status": "proved",
   "theorems": [
    "config_multi"
   ],
   "note": ""
  },
  {
   "property": "C347",
   "status": "proved",
   "theorems": [
    "config_keeps_metrics"
   ],
   "note": ""
  },
  {
   "property": "C348",
   "status": "partial",
   "theorems": [
    "report_matches_header",
    "report_succeeds_refuted"
   ],
   "note": "Proved for accepted configurations without data_points_for_classification; REFUTED with it. Values are numbers, not their six decimals."
  },
  {
   "property": "C349",
   "status": "partial",
   "theorems": [
    "file_holds_prefix",
    "file_fresh_refuted"
   ],
   "note": "Proved after evaluations that ended; REFUTED after one left by an exception. A write of the buffer is one step."
  },
  {
   "property": "C35",
   "status": "proved",
   "theorems": [
    "exact_match_and_jaccard",
    "windowed_exact_match_and_jaccard"
   ],
   "note": "Both the plain and the windowed evaluator."
  },
  {
   "property": "C350",
   "status": "partial",
   "theorems": [
    "constructor_keeps_list_refuted"
   ],
   "note": "REFUTED for every list."
  },
  {
   "property": "C351",
   "status": "proved",
   "theorems": [
    "reset_calls_constructor"
   ],
   "note": "The constructor itself is not modelled: that a second call restores the state is a property of each class."
  },
  {
   "property": "C352",
   "status": "proved",
   "theorems": [
    "reset_same_arguments"
   ],
   "note": ""
  },
  {
   "property": "C353",
   "status": "partial",
   "theorems": [
    "reset_restores_refuted"
   ],
   "note": "REFUTED."
  },
  {
   "property": "C354",
   "status": "proved",
   "theorems": [
    "normal_probability_symmetric",
    "normal_probability_sides",
    "normal_probability_tails"
   ],
   "note": "real arithmetic; monotonicity and distance to the true normal distribution not proved"
  },
  {
   "property": "C355",
   "status": "proved",
   "theorems": [
    "gaussian_observer_best_split_normal",
    "ht_votes_not_negative_normal",
    "ht_predicts_taught_normal",
    "lc_predicts_taught_normal"
   ],
   "note": ""
  },
  {
   "property": "C356",
   "status": "proved",
   "theorems": [
    "efdt_votes_at_root"
   ],
   "note": ""
  },
  {
   "property": "C357",
   "status": "proved",
   "theorems": [
    "vfdr_bound_value"
   ],
   "note": ""
  },
  {
   "property": "C358",
   "status": "proved",
   "theorems": [
    "object_size_counts_once"
   ],
   "note": "objects created during the iteration (scalars of numpy arrays), whose ids may be used again, are not modelled"
  },
  {
   "property": "C359",
   "status": "proved",
   "theorems": [
    "part_not_larger",
    "size_ignores_order"
   ],
   "note": ""
  },
  {
   "property": "C36",
   "status": "proved",
   "theorems": [
    "regression_errors_are_means",
    "windowed_regression_errors_are_means",
    "regression_reset_fresh",
    "windowed_multitarget_reset_fresh"
   ],
   "note": ""
  },
  {
   "property": "C360",
   "status": "proved",
   "theorems": [
    "clean_header_lines",
    "clean_header_again"
   ],
   "note": "paths are the same file only if equal"
  },
  {
   "property": "C361",
   "status": "partial",
   "theorems": [
    "clean_in_place_refuted"
   ],
   "note": "REFUTED for every content."
  },
  {
   "property": "C362",
   "status": "partial",
   "theorems": [
    "no_header_name",
    "no_header_name_refuted"
   ],
   "note": "Proved for names with at most one dot; REFUTED for others."
  },
  {
   "property": "C363",
   "status": "proved",
   "theorems": [
    "normalize_values_spec"
   ],
   "note": "real arithmetic"
  },
  {
   "property": "C364",
   "status": "proved",
   "theorems": [
    "add_dicts_spec"
   ],
   "note": "real arithmetic"
  },
  {
   "property": "C365",
   "status": "proved",
   "theorems": [
    "max_value_key_first"
   ],
   "note": ""
  },
  {
   "property": "C366",
   "status": "proved",
   "theorems": [
    "measure_matrix_counts"
   ],
   "note": "labels are integers; the list of the caller is the same object as targets and grows with it, which the model does not show"
  },
  {
   "property": "C367",
   "status": "partial",
   "theorems": [
    "measure_accuracy",
    "measure_accuracy_empty_refuted"
   ],
   "note": "Proved once there is a result; REFUTED before the first one and after a reset: the answer is nan, not the 0.0 of the except branch, because a numpy number divided by 0 does not raise."
  },
  {
   "property": "C368",
   "status": "partial",
   "theorems": [
    "measure_precision_recall",
    "measure_precision_refuted"
   ],
   "note": "Proved for labels 0 and 1 in either order; REFUTED otherwise: with targets [2, 0, 1] the column 1 - 2 = -1 is the last one, and a perfect classifier has precision 1/2; with targets [1] IndexError is raised."
  },
  {
   "property": "C369",
   "status": "partial",
   "theorems": [
    "measure_kappa_t",
    "measure_kappa_t_refuted"
   ],
   "note": "Proved with pc = (weight of the results that repeat the label before) / (number of results); REFUTED that it is at most 1: with weights 2 three wrong predictions give Kappa T = 4."
  },
  {
   "property": "C37",
   "status": "proved",
   "theorems": [
    "datastream_next_is_following_rows",
    "datastream_delivers_in_order",
    "datastream_restart_starts_over"
   ],
   "note": "DataStream and FileStream; any batch sizes and restarts, over-reading included"
  },
  {
   "property": "C370",
   "status": "proved",
   "theorems": [
    "measure_majority_class"
   ],
   "note": "real arithmetic"
  },
  {
   "property": "C371",
   "status": "proved",
   "theorems": [
    "measure_kappa_m"
   ],
   "note": "real arithmetic; the majority weight is described by its change at each event"
  },
  {
   "property": "C372",
   "status": "partial",
   "theorems": [
    "window_matrix_counts",
    "window_weights_refuted"
   ],
   "note": "Proved for weights 1; REFUTED otherwise: a result is added with its weight and removed with 1, so that a window of one wrong result can have accuracy 2."
  },
  {
   "property": "C373",
   "status": "proved",
   "theorems": [
    "window_kappa_t"
   ],
   "note": "weights 1; real arithmetic"
  },
  {
   "property": "C374",
   "status": "proved",
   "theorems": [
    "measure_kappa_cohen"
   ],
   "note": "real arithmetic"
  },
  {
   "property": "C375",
   "status": "proved",
   "theorems": [
    "measure_f1_gmean"
   ],
   "note": "real arithmetic"
  },
  {
   "property": "C376",
   "status": "proved",
   "theorems": [
    "window_kappa_m_bound"
   ],
   "note": "weights 1; real arithmetic"
  },
  {
   "property": "C377",
   "status": "proved",
   "theorems": [
    "check_weights_spec"
   ],
   "note": "values are classified as the isinstance tests do; numpy is described in the model"
  },
  {
   "property": "C378",
   "status": "partial",
   "theorems": [
    "check_weights_refuted"
   ],
   "note": "REFUTED: an array of one number becomes n rows of one; the empty list is accepted and the empty array refused; an array without dimensions raises IndexError."
  },
  {
   "property": "C379",
   "status": "proved",
   "theorems": [
    "random_state_spec"
   ],
   "note": "a generator is a seed and a number of draws; the numbers themselves are numpy's"
  },
  {
   "property": "C38",
   "status": "partial",
   "theorems": [
    "datastream_remaining_partial",
    "datastream_remaining_negative_refuted"
   ],
   "note": "REFUTED as stated: n_remaining_samples becomes negative as soon as more rows were asked for than existed. has_more_samples is always right."
  },
  {
   "property": "C380",
   "status": "proved",
   "theorems": [
    "speed_batches"
   ],
   "note": "the clock is an argument"
  },
  {
   "property": "C381",
   "status": "partial",
   "theorems": [
    "speed_percentages",
    "speed_percentages_refuted"
   ],
   "note": "Proved: 5, 10, 15, ... up to 5 * floor(20 * (generated + batch_size) / n_samples), each once and in order; REFUTED that they stay at most 100 or tell what was generated: 10 samples in batches of 5 end with 150%, and 100% is told after the first batch."
  },
  {
   "property": "C382",
   "status": "partial",
   "theorems": [
    "unsupervised_stream_refuted"
   ],
   "note": "REFUTED: the getter and setter of each property use the attribute of the same name, so that constructing the object, and reading or assigning any of the six, ends in RecursionError whatever the limit."
  },
  {
   "property": "C383",
   "status": "partial",
   "theorems": [
    "file_option_answers_refuted"
   ],
   "note": "Proved for all but is_output; REFUTED for is_output(): the attribute hides the method, TypeError is raised for every FileOption."
  },
  {
   "property": "C384",
   "status": "proved",
   "theorems": [
    "plot_lines",
    "plot_short_call"
   ],
   "note": ""
  },
  {
   "property": "C385",
   "status": "proved",
   "theorems": [
    "plot_redraws"
   ],
   "note": ""
  },
  {
   "property": "C386",
   "status": "partial",
   "theorems": [
    "plot_limits",
    "plot_limits_refuted"
   ],
   "note": "REFUTED in general: proved (plot_limits) for the newest values, of kappa T and kappa M, of the errors, and of other metrics while between 0 and 1; plot_limits_refuted: a negative kappa is drawn outside, and earlier larger errors leave the plot because only the newest values set the limits."
  },
  {
   "property": "C387",
   "status": "partial",
   "theorems": [
    "plot_points",
    "plot_points_memory_refuted",
    "plot_points_refuted"
   ],
   "note": "REFUTED in general: proved (plot_points) for classes numbered from 0; plot_points_memory_refuted: a buffer per target value is added at every call because the flag that they exist is never set; plot_points_refuted: points of labels not numbered from 0 are lost."
  },
  {
   "property": "C388",
   "status": "partial",
   "theorems": [
    "plots_placed",
    "plots_placed_refuted",
    "plots_order_refuted"
   ],
   "note": "REFUTED in general: proved (plots_placed) for one to nine plots; plots_placed_refuted: with ten or more (a stream of classes has ten such metrics) the visualizer raises ValueError for every list; plots_order_refuted: without any plot it raises IndexError, and without the evaluator's reordering a running time before a plot makes it raise."
  },
  {
   "property": "C389",
   "status": "proved",
   "theorems": [
    "visualizer_accepts"
   ],
   "note": ""
  },
  {
   "property": "C39",
   "status": "proved",
   "theorems": [
    "time_manager_conserves_samples",
    "available_samples_are_the_due_ones",
    "time_manager_never_raises"
   ],
   "note": "for any sort that orders by available time"
  },
  {
   "property": "C390",
   "status": "proved",
   "theorems": [
    "true_plot_limits"
   ],
   "note": ""
  },
  {
   "property": "C40",
   "status": "partial",
   "theorems": [
    "next_sample_takes_first_partial",
    "next_sample_with_weights_refuted"
   ],
   "note": "REFUTED with weights: next_sample reads a column \"weight\" that does not exist and always raises KeyError. Holds once a batch was queued without weights."
  },
  {
   "property": "C41",
   "status": "proved",
   "theorems": [
    "prequential_tests_then_trains",
    "prequential_scores_everything",
    "prequential_terminates",
    "take_of_list"
   ],
   "note": "Trace of every run for arbitrary (history-dependent, possibly raising) learners, clock and stream; hypothesis: predict returns one prediction per row."
  },
  {
   "property": "C42",
   "status": "partial",
   "theorems": [
    "prequential_draws_at_most_partial",
    "prequential_overshoots_refuted"
   ],
   "note": "REFUTED when the batch size does not divide the samples to evaluate: on any unbounded stream more than max_samples are drawn and evaluated. Proved: overshoot is less than one batch and nil when the batch size divides."
  },
  {
   "property": "C43",
   "status": "proved",
   "theorems": [
    "holdout_trains_and_tests_apart",
    "holdout_static_test_set",
    "holdout_reports",
    "holdout_terminates"
   ],
   "note": "Static and dynamic test sets, arbitrary learners."
  },
  {
   "property": "C44",
   "status": "partial",
   "theorems": [
    "delayed_trains_on_available_labels_partial",
    "delayed_scores_every_row_once_partial",
    "delayed_terminates",
    "delayed_without_pretraining_refuted",
    "delayed_weighted_refuted"
   ],
   "note": "Proved for pretrain_size > 0, arbitrary learners that may raise, any tie order. REFUTED for pretrain_size = 0 (always AttributeError, nothing predicted) and for weighted streams (KeyError when draining the queue)."
  },
  {
   "property": "C45",
   "status": "partial",
   "theorems": [
    "minmax_unit_interval_refuted",
    "minmax_scaler_is_identity"
   ],
   "note": "REFUTED: the scaler multiplies the normalised value back by the range, so it returns every value unchanged (0 for a constant column). minmax_scaler_is_identity proves this for every history."
  },
  {
   "property": "C46",
   "status": "proved",
   "theorems": [
    "standard_scaler_standardises"
   ],
   "note": "Exact real arithmetic; rows of one width; every array passed once (see C83 for repeated arrays)."
  },
  {
   "property": "C47",
   "status": "proved",
   "theorems": [
    "cleaner_replaces_missing_cells"
   ],
   "note": "For every strategy: cells that are not missing are unchanged, missing cells get the value the strategy defines. Arrays passed once."
  },
  {
   "property": "C48",
   "status": "partial",
   "theorems": [
    "one_hot_decodes_partial",
    "one_hot_trailing_column_refuted"
   ],
   "note": "Layouts ending with a block are decoded. REFUTED for layouts ending with a plain column: IndexError for every such row."
  },
  {
   "property": "C49",
   "status": "proved",
   "theorems": [
    "ebst_best_split"
   ],
   "note": "the merit function is arbitrary, so the theorem fixes both sides of every candidate"
  },
  {
   "property": "C50",
   "status": "proved",
   "theorems": [
    "ebst_best_split"
   ],
   "note": ""
  },
  {
   "property": "C51",
   "status": "proved",
   "theorems": [
    "nominal_class_best_split",
    "nominal_binary_sides_add_up",
    "nominal_branch_mapping"
   ],
   "note": ""
  },
  {
   "property": "C52",
   "status": "proved",
   "theorems": [
    "gaussian_estimator_exact"
   ],
   "note": "all histories of weights >= 0, over the reals"
  },
  {
   "property": "C53",
   "status": "partial",
   "theorems": [
    "binary_tree_observer_refuted"
   ],
   "note": "REFUTED: after any history, update with a present value raises KeyError (the node constructor does `+=` on an empty dict), so nothing is ever recorded."
  },
  {
   "property": "C54",
   "status": "partial",
   "theorems": [
    "numeric_test_branch",
    "nominal_test_branch",
    "multiway_test_branch",
    "tests_missing_attribute_partial",
    "tests_missing_attribute_refuted",
    "numeric_test_nan_refuted"
   ],
   "note": "REFUTED in two corners: an instance with exactly att_idx attributes raises IndexError instead of -1, and a nan value goes to branch 1 although no rule covers it. Proved for every instance that has the attribute (over exact reals for the numeric test) and for every sequence of branches added to a multiway test."
  },
  {
   "property": "C55",
   "status": "proved",
   "theorems": [
    "gini_merit_range",
    "info_gain_range",
    "variance_reduction_merit",
    "variance_reduction_total",
    "variance_reduction_empty_refuted"
   ],
   "note": "variance_reduction_empty_refuted shows the excluded corner: an empty list of branches at a node with less than one unit of weight divides by zero."
  },
  {
   "property": "C56",
   "status": "proved",
   "theorems": [
    "constant_stream_never_alarms",
    "adwin_constant_stream_never_alarms"
   ],
   "note": "DDM, EDDM, PageHinkley, HDDM_A, HDDM_W and ADWIN."
  },
  {
   "property": "C57",
   "status": "proved",
   "theorems": [
    "ddm_decision_rule"
   ],
   "note": "Exact arithmetic."
  },
  {
   "property": "C58",
   "status": "proved",
   "theorems": [
    "eddm_decision_rule"
   ],
   "note": "Exact arithmetic."
  },
  {
   "property": "C59",
   "status": "proved",
   "theorems": [
    "hddm_w_decision_rule"
   ],
   "note": "Exact arithmetic."
  },
  {
   "property": "C60",
   "status": "proved",
   "theorems": [
    "adwin_decision_rule"
   ],
   "note": "The examined splits move, row by row from the oldest, every bucket except the newest of each row to the old side (see C12)."
  },
  {
   "property": "C61",
   "status": "partial",
   "theorems": [
    "confusion_matrix_remove_outside_refuted"
   ],
   "note": "REFUTED: remove at exactly the matrix size raises IndexError (data_structures.py:462 uses <=); beyond it the documented False is returned."
  },
  {
   "property": "C62",
   "status": "proved",
   "theorems": [
    "mol_confusion_matrix_counts",
    "mol_update_accepts",
    "mol_negative_target_refuted"
   ],
   "note": "For non-negative targets; a negative target wipes the matrix (mol_negative_target_refuted)."
  },
  {
   "property": "C63",
   "status": "partial",
   "theorems": [
    "complex_buffer_is_bounded_fifo_partial",
    "complex_buffer_one_row_refuted",
    "complex_buffer_width_unchecked"
   ],
   "note": "REFUTED for one-row batches, which are stored nested; proved for all other histories."
  },
  {
   "property": "C64",
   "status": "proved",
   "theorems": [
    "kappa_t_m_baselines",
    "majority_class_correct"
   ],
   "note": ""
  },
  {
   "property": "C65",
   "status": "proved",
   "theorems": [
    "precision_recall_textbook"
   ],
   "note": ""
  },
  {
   "property": "C66",
   "status": "partial",
   "theorems": [
    "windowed_macro_scores_refuted"
   ],
   "note": "REFUTED: classes that left the window stay in the macro averages."
  },
  {
   "property": "C67",
   "status": "partial",
   "theorems": [
    "multilabel_bad_shape_ignored",
    "multilabel_invalid_label_refuted"
   ],
   "note": "REFUTED for label values outside {0,1}; proved for length mismatch and NaN."
  },
  {
   "property": "C68",
   "status": "proved",
   "theorems": [
    "multitarget_errors_are_averages",
    "windowed_multitarget_errors_are_averages"
   ],
   "note": ""
  },
  {
   "property": "C69",
   "status": "proved",
   "theorems": [
    "running_time_accounts",
    "running_time_needs_begin"
   ],
   "note": ""
  },
  {
   "property": "C70",
   "status": "proved",
   "theorems": [
    "multilabel_scores_textbook"
   ],
   "note": ""
  },
  {
   "property": "C71",
   "status": "proved",
   "theorems": [
    "multitarget_incremental_is_batch",
    "windowed_multitarget_is_batch",
    "multitarget_before_any_result"
   ],
   "note": ""
  },
  {
   "property": "C72",
   "status": "partial",
   "theorems": [
    "windowed_total_sum_partial",
    "windowed_total_sum_refuted"
   ],
   "note": "REFUTED: nothing is ever removed from the matrix, the total counts all labels ever seen."
  },
  {
   "property": "C73",
   "status": "partial",
   "theorems": [
    "columns_split_partial",
    "duplicate_names_lose_features_refuted"
   ],
   "note": "REFUTED for tables with duplicate column names: feature columns sharing a target's name are dropped. Proved for distinct names."
  },
  {
   "property": "C74",
   "status": "partial",
   "theorems": [
    "filestream_default_targets_partial",
    "datastream_default_targets_refuted"
   ],
   "note": "REFUTED for DataStream with n_targets >= 2: every target row is empty. Proved for FileStream."
  },
  {
   "property": "C75",
   "status": "proved",
   "theorems": [
    "target_values_are_the_labels"
   ],
   "note": ""
  },
  {
   "property": "C76",
   "status": "proved",
   "theorems": [
    "load_accepts_iff",
    "load_Xy_rejects_mismatch"
   ],
   "note": ""
  },
  {
   "property": "C77",
   "status": "proved",
   "theorems": [
    "temporal_sort_keeps_rows_together",
    "temporal_integer_delay",
    "temporal_next_is_following_rows"
   ],
   "note": "array data with an array y"
  },
  {
   "property": "C78",
   "status": "partial",
   "theorems": [
    "temporal_restart_keeps_times_refuted",
    "datastream_restart_starts_over"
   ],
   "note": "REFUTED for TemporalDataStream: times, delays and weights of the last batch survive restart. Proved for DataStream."
  },
  {
   "property": "C79",
   "status": "partial",
   "theorems": [
    "prequential_reports_everything",
    "prequential_fewer_than_20_refuted",
    "holdout_fewer_than_20_refuted"
   ],
   "note": "REFUTED below 20 samples: the progress bar divides by total//20, the exception is swallowed, nothing is reported and the summary raises. Proved for prequential from 20 samples on. Missing: positive statement for holdout."
  },
  {
   "property": "C80",
   "status": "partial",
   "theorems": [
    "delayed_weights_of_other_rows_refuted"
   ],
   "note": "REFUTED: the weights of the batch that just arrived are passed with the delayed rows, even with a different length."
  },
  {
   "property": "C81",
   "status": "partial",
   "theorems": [
    "delayed_never_reports_refuted",
    "delayed_terminates"
   ],
   "note": "REFUTED: with at most n_wait (and max_samples) rows left in the stream it never reports and never returns normally; termination holds."
  },
  {
   "property": "C82",
   "status": "partial",
   "theorems": [
    "delayed_ignores_max_samples_refuted"
   ],
   "note": "REFUTED: max_samples is compared with the number of rows trained on, so late labels make it draw the whole stream."
  },
  {
   "property": "C83",
   "status": "partial",
   "theorems": [
    "standard_scaler_aliasing_refuted"
   ],
   "note": "REFUTED: partial_fit keeps views of the caller's rows and transform overwrites them."
  },
  {
   "property": "C84",
   "status": "partial",
   "theorems": [
    "transform_overwrites_input_refuted",
    "standard_scaler_changes_input_refuted"
   ],
   "note": "REFUTED: the rows of X are overwritten with the result."
  },
  {
   "property": "C85",
   "status": "partial",
   "theorems": [
    "cleaner_averages_markers_refuted"
   ],
   "note": "REFUTED: missing markers other than NaN are included in the statistic."
  },
  {
   "property": "C86",
   "status": "proved",
   "theorems": [
    "gaussian_observer_density",
    "gaussian_observer_best_split"
   ],
   "note": "over the reals; the normal distribution function is an arbitrary function into [0,1]"
  },
  {
   "property": "C87",
   "status": "partial",
   "theorems": [
    "gaussian_split_not_monotone_refuted"
   ],
   "note": "REFUTED: weight 1/2 on 0 and on 10: left weight 1 at cut 2, 0 at cut 7"
  },
  {
   "property": "C88",
   "status": "proved",
   "theorems": [
    "ebst_prune_removes_bad_only",
    "ebst_prune_keeps_best"
   ],
   "note": ""
  },
  {
   "property": "C89",
   "status": "partial",
   "theorems": [
    "ebst_pruned_data_lost_refuted"
   ],
   "note": "REFUTED: observe 1 and 3, prune 3, observe 3 again: the left side of \"<= 3\" has weight 2 instead of 3"
  },
  {
   "property": "C90",
   "status": "proved",
   "theorems": [
    "nominal_class_probability"
   ],
   "note": ""
  },
  {
   "property": "C91",
   "status": "proved",
   "theorems": [
    "nominal_regression_best_split"
   ],
   "note": ""
  },
  {
   "property": "C92",
   "status": "partial",
   "theorems": [
    "equal_predicates_differ_refuted"
   ],
   "note": "REFUTED: equality ignores the compared value."
  },
  {
   "property": "C93",
   "status": "partial",
   "theorems": [
    "gini_split_never_worse",
    "info_gain_range",
    "variance_reduction_merit",
    "variance_reduction_negative_refuted",
    "intra_cluster_negative_refuted"
   ],
   "note": "REFUTED for the multi-target criterion and for fractional weights; proved for Gini, information gain and variance reduction on integer total weights."
  },
  {
   "property": "C94",
   "status": "partial",
   "theorems": [
    "hellinger_range_partial",
    "hellinger_range_refuted",
    "hellinger_perfect_split_refuted",
    "variance_reduction_range_refuted"
   ],
   "note": "REFUTED: the Hellinger distance reaches sqrt 2 on two classes (declared 1), a perfect split gets 0 when absent classes have no dictionary entry, variance reduction exceeds its declared range 1. Proved: Hellinger lies in [0, sqrt 2] with equality cases when both classes are recorded in both branches."
  },
  {
   "property": "C95",
   "status": "proved",
   "theorems": [
    "generator_batches",
    "generator_batches_return",
    "generator_fuel_irrelevant"
   ],
   "note": "The while loop of balanced drawing carries fuel; generator_fuel_irrelevant shows a returned result does not depend on it."
  },
  {
   "property": "C96",
   "status": "partial",
   "theorems": [
    "generator_restart_reproduces",
    "hyperplane_restart_reproduces",
    "generate_drift_changes_function",
    "mixed_drift_switches_function",
    "restart_after_drift_refuted",
    "restart_shared_state_refuted"
   ],
   "note": "REFUTED after generate_drift and for shared RandomState; proved otherwise."
  },
  {
   "property": "C97",
   "status": "partial",
   "theorems": [
    "sea_labels",
    "stagger_labels",
    "sine_labels",
    "mixed_labels",
    "agrawal_labels_partial",
    "agrawal_function4_refuted"
   ],
   "note": "REFUTED for AGRAWAL function 4; proved for the other 19 concepts (over the reals)."
  },
  {
   "property": "C98",
   "status": "partial",
   "theorems": [
    "balanced_labels_alternate",
    "sea_balanced_labels_alternate",
    "sea_noise_balance_refuted"
   ],
   "note": "REFUTED with noise; proved without."
  },
  {
   "property": "C99",
   "status": "partial",
   "theorems": [
    "sea_noise_flips",
    "sea_small_noise_refuted",
    "sea_full_noise_refuted"
   ],
   "note": "REFUTED: noise_percentage is not the flip probability. Proved instead: no label is flipped below 1%, every label of both classes is flipped when every draw is within the noise, and 100% noise can leave labels unflipped."
  }
 ]
}
