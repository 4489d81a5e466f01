{
 "claims": [
  {
   "property": "C01",
   "status": "proved",
   "theorems": [
    "C01_round_preserving_sum",
    "C01_round_preserving_row_totals"
   ],
   "note": ""
  },
  {
   "property": "C02",
   "status": "proved",
   "theorems": [
    "C02_calibrated_counts"
   ],
   "note": "row sums of the confident joint at least 1e-100 (TINY_VALUE) for the classes that occur; other rows may be zero"
  },
  {
   "property": "C03",
   "status": "proved",
   "theorems": [
    "C03_joint_is_distribution"
   ],
   "note": ""
  },
  {
   "property": "C04",
   "status": "proved",
   "theorems": [
    "C04_confident_joint_rule",
    "C04_counted_class_is_confident_refuted",
    "C04_documented_loop_refuted"
   ],
   "note": "the two _refuted theorems record deviations from the docstring"
  },
  {
   "property": "C05",
   "status": "proved",
   "theorems": [
    "C05_thresholds"
   ],
   "note": ""
  },
  {
   "property": "C06",
   "status": "proved",
   "theorems": [
    "C06_count_agrees_with_filter"
   ],
   "note": ""
  },
  {
   "property": "C07",
   "status": "proved",
   "theorems": [
    "C07_top_prediction_never_flagged",
    "C07_predicted_neq_given"
   ],
   "note": "a deficit of exactly 1e-6 against a class of smaller index counts as beaten"
  },
  {
   "property": "C08",
   "status": "proved",
   "theorems": [
    "C08_both_is_intersection"
   ],
   "note": ""
  },
  {
   "property": "C09",
   "status": "proved",
   "theorems": [
    "C09_ranked_output"
   ],
   "note": ""
  },
  {
   "property": "C10",
   "status": "proved",
   "theorems": [
    "C10_parallelism"
   ],
   "note": ""
  },
  {
   "property": "C11",
   "status": "proved",
   "theorems": [
    "C11_prune_by_class"
   ],
   "note": "classes with a single example are never pruned (explicit in the theorem)"
  },
  {
   "property": "C12",
   "status": "proved",
   "theorems": [
    "C12_prune_by_noise_rate"
   ],
   "note": ""
  },
  {
   "property": "C13",
   "status": "partial",
   "theorems": [
    "C13_min_examples_partial",
    "C13_min_examples_noise_rate_refuted"
   ],
   "note": "true for prune_by_class and both (frac_noise at most 1, no num_to_remove_per_class); false for prune_by_noise_rate, counterexample proved"
  },
  {
   "property": "C14",
   "status": "proved",
   "theorems": [
    "C14_low_score_filters"
   ],
   "note": ""
  },
  {
   "property": "C55",
   "status": "partial",
   "theorems": [
    "C55_num_to_remove_by_class_partial",
    "C55_num_to_remove_noise_rate_refuted"
   ],
   "note": "true for prune_by_class; false for prune_by_noise_rate, counterexample proved"
  },
  {
   "property": "C15",
   "status": "proved",
   "theorems": [
    "C15_scores",
    "C15_scores_are_per_example",
    "C15_adjusted_scores"
   ],
   "note": "adjusted scores: rows assumed to sum to one"
  },
  {
   "property": "C16",
   "status": "proved",
   "theorems": [
    "C16_ensemble_is_average",
    "C16_identical_models",
    "C16_ensemble_succeeds",
    "C16_custom_weights",
    "C16_formula"
   ],
   "note": ""
  },
  {
   "property": "C17",
   "status": "proved",
   "theorems": [
    "C17_find_top_issues"
   ],
   "note": ""
  },
  {
   "property": "C56",
   "status": "partial",
   "theorems": [
    "C56_entropy_scores_range_partial",
    "C56_certain_correct_label_scores_best_refuted"
   ],
   "note": "range proved; the ordering claim is false at probability 1 (score 0), counterexample proved"
  },
  {
   "property": "C18",
   "status": "partial",
   "theorems": [
    "C18_latent_estimates",
    "C18_converged_estimates_partial",
    "C18_converged_missing_class_refuted"
   ],
   "note": "without convergence iterations: proved for every confident joint with row and column sums at least 1e-100; with them: proved when every class occurs in the labels (at most 10^6 classes, 10^12 labels) and false when a class is missing, proved for every such input"
  },
  {
   "property": "C19",
   "status": "proved",
   "theorems": [
    "C19_bayes",
    "C19_passed_noise"
   ],
   "note": "the matrix returned by np.linalg.inv is an argument required to be a left inverse"
  },
  {
   "property": "C20",
   "status": "proved",
   "theorems": [
    "C20_noise_free_class"
   ],
   "note": ""
  },
  {
   "property": "C57",
   "status": "proved",
   "theorems": [
    "C57_pyx_rows"
   ],
   "note": ""
  },
  {
   "property": "C21",
   "status": "proved",
   "theorems": [
    "C21_thresholds",
    "C21_issues_independent_of_batching",
    "C21_batch_size"
   ],
   "note": "Any split for the thresholds, any split and execution for the scores; C21_batch_size: find_label_issues_batched gives one mask for every batch size. C21_floor_refuted shows the lower bound on the batch means is needed."
  },
  {
   "property": "C22",
   "status": "partial",
   "theorems": [
    "C22_parallel_count",
    "C22_calibrated_partial",
    "C22_calibrated_refuted"
   ],
   "note": "Default counting: proved for every schedule. Calibrated counting: proved for batches below 10000 examples, refuted at 10000 (fancy-index += loses repeated labels of a chunk)."
  },
  {
   "property": "C23",
   "status": "proved",
   "theorems": [
    "C23_lists_round_trip",
    "C23_matrix_round_trip"
   ],
   "note": ""
  },
  {
   "property": "C24",
   "status": "proved",
   "theorems": [
    "C24_format_labels",
    "C24_format_multilabels"
   ],
   "note": "label columns that are ClassLabel features are not remapped by the code and not covered"
  },
  {
   "property": "C25",
   "status": "proved",
   "theorems": [
    "C25_probabilities",
    "C25_balls",
    "C25_rejects"
   ],
   "note": "termination included; fewer than 500000 balls"
  },
  {
   "property": "C26",
   "status": "proved",
   "theorems": [
    "C26_noisy_label_counts"
   ],
   "note": ""
  },
  {
   "property": "C27",
   "status": "proved",
   "theorems": [
    "C27_scores_in_range",
    "C27_closed_form"
   ],
   "note": ""
  },
  {
   "property": "C28",
   "status": "proved",
   "theorems": [
    "C28_distances_to_scores",
    "C28_corrected_scores",
    "C28_estimator_features",
    "C28_estimator_pred_probs",
    "C28_minkowski_two",
    "C28_gen_no_classes"
   ],
   "note": "exact reals (no underflow of exp); nearest-neighbour search is an argument"
  },
  {
   "property": "C29",
   "status": "proved",
   "theorems": [
    "C29_never_replaced",
    "C29_score_features",
    "C29_score_pred_probs",
    "C29_fit_score_when_fitted"
   ],
   "note": ""
  },
  {
   "property": "C58",
   "status": "partial",
   "theorems": [
    "C58_later_scores_partial",
    "C58_score_independent_of_history_refuted"
   ],
   "note": "false for the first batch: the scaling factor is taken from the first batch scored, counterexample proved; true for every later score call"
  },
  {
   "property": "C30",
   "status": "proved",
   "theorems": [
    "C30_positions",
    "C30_position_content",
    "C30_find_label_issues",
    "C30_low_memory",
    "C30_scores"
   ],
   "note": "sentence scores need non-empty sentences (numpy raises on an empty one)"
  },
  {
   "property": "C31",
   "status": "partial",
   "theorems": [
    "C31_tokens",
    "C31_sentences_partial",
    "C31_all_below_refuted",
    "C31_empty_sentence"
   ],
   "note": "sentence variant raises IndexError when every score is below the threshold (or there is no sentence), proved for all such inputs; everything else proved"
  },
  {
   "property": "C54",
   "status": "proved",
   "theorems": [
    "C54_merge_probs",
    "C54_filter_sentence",
    "C54_map_too_short"
   ],
   "note": "rows whose kept mass is zero are excluded (numpy divides by zero)"
  },
  {
   "property": "C59",
   "status": "proved",
   "theorems": [
    "C59_common_tokens",
    "C59_common_swaps",
    "C59_filter_by_token",
    "C59_out_of_range"
   ],
   "note": "printing and class-name substitution not modelled"
  },
  {
   "property": "C60",
   "status": "proved",
   "theorems": [
    "C60_softmin"
   ],
   "note": "exact reals"
  },
  {
   "property": "C32",
   "status": "proved",
   "theorems": [
    "C32_flagged_pixels",
    "C32_pixel_content",
    "C32_downsampling",
    "C32_ranked_pixels",
    "C32_batch_size"
   ],
   "note": "batch-size independence needs every (downsampled) given label to have predicted probability at least 2e-6 and a class count of at least 2; exact numbers"
  },
  {
   "property": "C33",
   "status": "partial",
   "theorems": [
    "C33_pixels",
    "C33_images_partial",
    "C33_images_refuted",
    "C33_range"
   ],
   "note": "false as documented: whenever some image scores at or above the threshold, exactly one such image (the lowest) is returned too, because of ranking[:cutoff + 1]; proved for all inputs"
  },
  {
   "property": "C61",
   "status": "proved",
   "theorems": [
    "C61_pixel_scores",
    "C61_num_pixel_issues",
    "C61_softmin"
   ],
   "note": "softmin over exact reals"
  },
  {
   "property": "C62",
   "status": "proved",
   "theorems": [
    "C62_common_label_issues",
    "C62_filter_by_class"
   ],
   "note": "class-name substitution and printing not modelled; exclude only looks at the predicted class"
  },
  {
   "property": "C34",
   "status": "proved",
   "theorems": [
    "C34_ema_average",
    "C34_ema_order_independent",
    "C34_ema_monotone",
    "C34_ema_rejects"
   ],
   "note": "order independence and monotonicity hold across different (unstable) sorting routines too"
  },
  {
   "property": "C63",
   "status": "partial",
   "theorems": [
    "C63_mask",
    "C63_predicted_neq_given",
    "C63_confident_learning",
    "C63_ranked",
    "C63_low_filters",
    "C63_universal_class_raises",
    "C63_low_ranking_refuted",
    "C63_low_memory"
   ],
   "note": "the ranked output of the low-score filters is refuted: indices in score order are permuted by an argsort of scores in index order; a class on every example makes issue finding raise"
  },
  {
   "property": "C64",
   "status": "proved",
   "theorems": [
    "C64_class_scores",
    "C64_overall_scores",
    "C64_degenerate_raises"
   ],
   "note": ""
  },
  {
   "property": "C65",
   "status": "proved",
   "theorems": [
    "C65_common_issues",
    "C65_class_ranking",
    "C65_health_score"
   ],
   "note": "int(probability * num_examples) is exact over Q, in floats it may truncate to one less"
  },
  {
   "property": "C66",
   "status": "partial",
   "theorems": [
    "C66_multilabel_confident_joint",
    "C66_num_to_remove_refuted"
   ],
   "note": "the confident-joint part is proved; the num_to_remove_per_class part is refuted: with prune_by_class the examples without the class are removed"
  },
  {
   "property": "C35",
   "status": "proved",
   "theorems": [
    "C35_majority_vote",
    "C35_total",
    "C35_random_choice",
    "C35_all_tied_raises"
   ],
   "note": "the vote raises ValueError when a tie survives and no example has a clear winner (C35_all_tied_raises)"
  },
  {
   "property": "C36",
   "status": "proved",
   "theorems": [
    "C36_consensus",
    "C36_ensemble",
    "C36_total",
    "C36_total_ensemble"
   ],
   "note": "np.sqrt is an arbitrary function positive on positive numbers"
  },
  {
   "property": "C37",
   "status": "proved",
   "theorems": [
    "C37_active_learning"
   ],
   "note": "predicted probabilities after temperature scaling"
  },
  {
   "property": "C67",
   "status": "partial",
   "theorems": [
    "C67_votes_support_partial",
    "C67_best_quality_refuted"
   ],
   "note": "proved for consensus_method majority_vote; false for the default best_quality, where the consensus likelihood can fall below the non-consensus likelihood"
  },
  {
   "property": "C68",
   "status": "proved",
   "theorems": [
    "C68_annotator_stats"
   ],
   "note": ""
  },
  {
   "property": "C69",
   "status": "proved",
   "theorems": [
    "C69_majority_vote_order",
    "C69_annotator_order",
    "C69_annotator_order_ensemble"
   ],
   "note": ""
  },
  {
   "property": "C70",
   "status": "proved",
   "theorems": [
    "C70_best_quality",
    "C70_tie_refuted"
   ],
   "note": "C70_tie_refuted: with a tied maximum the majority vote is kept even when its posterior is far below the maximum"
  },
  {
   "property": "C38",
   "status": "proved",
   "theorems": [
    "C38_iou_range",
    "C38_iou_symmetric",
    "C38_iou_self",
    "C38_iou_self_one",
    "C38_iou_positive",
    "C38_iou_zero",
    "C38_iou_contained",
    "C38_iou_translation"
   ],
   "note": "Boxes with rational coordinates; overlap means a common interior point."
  },
  {
   "property": "C39",
   "status": "proved",
   "theorems": [
    "C39_matching",
    "C39_order_of_ties",
    "C39_perfect_image",
    "C39_average_precision"
   ],
   "note": "For every argsort, so for every order of tied confidences. Average precision without the float32 rounding."
  },
  {
   "property": "C53",
   "status": "proved",
   "theorems": [
    "C53_mask",
    "C53_ranked",
    "C53_scores",
    "C53_weights",
    "C53_unknown_class",
    "C53_formula"
   ],
   "note": "The Euclidean similarity is any function into [0,1]; in exact arithmetic an image score may exceed 1 by about 1e-100 and the ranking theorem assumes at most 1e99 boxes per image."
  },
  {
   "property": "C71",
   "status": "partial",
   "theorems": [
    "C71_counts_partial",
    "C71_average_refuted"
   ],
   "note": "The counts are divided by the number of thresholds times the number of classes (summary.py:587), so they are the averages only for one class; the sums are proved up to that factor."
  },
  {
   "property": "C72",
   "status": "proved",
   "theorems": [
    "C72_metrics"
   ],
   "note": ""
  },
  {
   "property": "C73",
   "status": "proved",
   "theorems": [
    "C73_overlooked",
    "C73_bad_location",
    "C73_swap"
   ],
   "note": ""
  },
  {
   "property": "C40",
   "status": "proved",
   "theorems": [
    "C40_shape",
    "C40_unchanged",
    "C40_duplicates"
   ],
   "note": "For every argsort and every order of visiting the duplicate sets."
  },
  {
   "property": "C41",
   "status": "proved",
   "theorems": [
    "C41_near_duplicate_sets",
    "C41_never_raises",
    "C41_exact_duplicates_flagged",
    "C41_zero_threshold",
    "C41_scores"
   ],
   "note": "A threshold of zero flags nothing because the comparison is strict."
  },
  {
   "property": "C74",
   "status": "partial",
   "theorems": [
    "C74_order_partial",
    "C74_order_refuted"
   ],
   "note": "Holds for a stable sort only; np.argsort is called with its default, which is not stable for rows longer than 16."
  },
  {
   "property": "C75",
   "status": "partial",
   "theorems": [
    "C75_created",
    "C75_default_metric",
    "C75_too_many_neighbors",
    "C75_graph_used_partial",
    "C75_other_features_refuted"
   ],
   "note": "The last clause is false: a stored graph is reused although other features are passed."
  },
  {
   "property": "C42",
   "status": "proved",
   "theorems": [
    "C42_all_classes_present",
    "C42_rarest",
    "C42_absent_class"
   ],
   "note": ""
  },
  {
   "property": "C43",
   "status": "partial",
   "theorems": [
    "C43_reported_partial",
    "C43_separated_partial",
    "C43_worst_cluster_refuted"
   ],
   "note": "False in general: the code compares a cluster's confidence with the ratio of the current worst cluster, so a later cluster can replace the worst one and the outcome depends on the visiting order. Proved: what is reported is a kept cluster below the threshold, and the worst cluster is found when it is well separated."
  },
  {
   "property": "C51",
   "status": "proved",
   "theorems": [
    "C51_null",
    "C51_most_common_pattern",
    "C51_no_null",
    "C51_column_impact",
    "C51_sequential",
    "C51_identifier_columns"
   ],
   "note": ""
  },
  {
   "property": "C76",
   "status": "proved",
   "theorems": [
    "C76_value",
    "C76_range",
    "C76_sign",
    "C76_check"
   ],
   "note": ""
  },
  {
   "property": "C77",
   "status": "partial",
   "theorems": [
    "C77_leave_one_out_partial",
    "C77_negative_probability_refuted"
   ],
   "note": "Holds for examples found among their own k+1 nearest neighbours; an example that is not (many exact duplicates) can get a negative probability."
  },
  {
   "property": "C44",
   "status": "proved",
   "theorems": [
    "C44_latest",
    "C44_one_row",
    "C44_failures",
    "C44_health",
    "C44_statistics",
    "C44_malformed_check_refuted"
   ],
   "note": "For a custom check whose table lacks its flag column the last theorem shows that recording it fails half-way and removes its previous summary row."
  },
  {
   "property": "C45",
   "status": "partial",
   "theorems": [
    "C45_unchanged_partial",
    "C45_entries_kept_partial",
    "C45_modified_refuted"
   ],
   "note": "False: inputs of a call are written into the caller's nested dictionaries and win over the inputs of later calls. Proved: existing entries are kept and nothing changes when the dictionaries already contain the inputs."
  },
  {
   "property": "C46",
   "status": "partial",
   "theorems": [
    "C46_no_overwrite",
    "C46_roundtrip",
    "C46_crash_partial",
    "C46_forced_crash_refuted",
    "C46_unlabelled_reload_refuted"
   ],
   "note": "The crash clause is false: the object file is emptied before it is rewritten."
  },
  {
   "property": "C78",
   "status": "partial",
   "theorems": [
    "C78_builtin_partial",
    "C78_substring_refuted"
   ],
   "note": "True for the built-in names; columns are selected by substring, so a custom check named label_length shows up in get_issues('label')."
  },
  {
   "property": "C79",
   "status": "proved",
   "theorems": [
    "C79_default",
    "C79_explicit",
    "C79_underperforming",
    "C79_outlier_without_labels_refuted"
   ],
   "note": "The last theorem records that the rule in the code dropping the outlier check without labels never applies."
  },
  {
   "property": "C80",
   "status": "partial",
   "theorems": [
    "C80_scores_partial",
    "C80_baseline_value",
    "C80_baseline_refuted",
    "C80_renaming_refuted"
   ],
   "note": "The baseline is the class identifier of the most frequent class over n instead of its frequency."
  },
  {
   "property": "C81",
   "status": "partial",
   "theorems": [
    "C81_rows_partial",
    "C81_columns_partial",
    "C81_duplicate_rows_refuted",
    "C81_stale_column_refuted",
    "C81_health_refuted"
   ],
   "note": "Partial: one row per check when the Imagelab lists only the requested checks."
  },
  {
   "property": "C50",
   "status": "proved",
   "theorems": [
    "C50_classes",
    "C50_tiny_class_refuted",
    "C50_overlap",
    "C50_overlap_counts",
    "C50_score_from_joint",
    "C50_score_complement",
    "C50_score_from_data",
    "C50_summary",
    "C50_summary_score_refuted",
    "C50_joint_only_refuted",
    "C50_confident_joint_only_refuted"
   ],
   "note": "The refutations record limits outside the statement: classes of probability below 1e-6, and health_summary not passing its joint to the overall score."
  },
  {
   "property": "C47",
   "status": "proved",
   "theorems": [
    "C47_classification",
    "C47_classification_plain",
    "C47_joint",
    "C47_regression",
    "C47_regression_rejects",
    "C47_mismatch"
   ],
   "note": "Any partition into folds, any classifier/regressor that returns one row per input. The rare-class example that is lent to training gets a certainty row for its own label, which the theorem states."
  },
  {
   "property": "C52",
   "status": "proved",
   "theorems": [
    "C52_issues",
    "C52_completes",
    "C52_search",
    "C52_exact_example_refuted",
    "C52_model_kwargs_refuted"
   ],
   "note": "Any regressor, any KFold split, any sort, exact arithmetic; sqrt and exp are arbitrary functions. Refuted extras: ties are decided for the fine candidate so exactly predicted examples can be flagged; the search ignores the caller's model_kwargs. C52_bad_model_raises: infeasible candidates scored -1e30 can win."
  },
  {
   "property": "C48",
   "status": "proved",
   "theorems": [
    "C48_training",
    "C48_training_list",
    "C48_rejects",
    "C48_integer_flags_refuted",
    "C48_list_weights_refuted",
    "C48_passed_noise_refuted",
    "C48_integer_flags_general",
    "C48_integer_flags_list",
    "C48_integer_weights_refuted"
   ],
   "note": "For every history of the object. Boundaries proved as refutations: an integer is_label_issue column trains on copies of the last two examples; labels in a Python list silently get all-one estimated weights; a noise matrix passed together with label_issues is ignored (stale noise rates of an earlier dataset are used)."
  },
  {
   "property": "C49",
   "status": "partial",
   "theorems": [
    "C49_low_memory_partial",
    "C49_filters_partial",
    "C49_repeat",
    "C49_first_call",
    "C49_later_calls",
    "C49_other_dataset_refuted",
    "C49_passed_noise_refuted",
    "C49_save_space_refuted",
    "C49_two_labels"
   ],
   "note": "True in low-memory mode and for the filters that do not prune by the joint (when both calls return); false for the default filter, where the confident joint of the first dataset is used for every later one: proved as C49_later_calls and by a concrete refutation. What is missing for the rest: nothing, the property is false there. pulearning excluded in C49_repeat, C49_first_call and C49_later_calls."
  },
  {
   "property": "C82",
   "status": "proved",
   "theorems": [
    "C82_statistic",
    "C82_permutations"
   ],
   "note": "The kernel density estimate is an arbitrary function of the statistics; the graph is given as its neighbour table."
  },
  {
   "property": "C83",
   "status": "proved",
   "theorems": [
    "C83_flags",
    "C83_scores"
   ],
   "note": "Reals for tanh; area statistic in exact rationals."
  },
  {
   "property": "C84",
   "status": "partial",
   "theorems": [
    "C84_statistic",
    "C84_scores_partial",
    "C84_direction_refuted"
   ],
   "note": "The statistic is symmetric and so is each example's unnormalised area; the normaliser max(i, N - i) (the docstring says max(i, N - 1 - i)) is not, so in a palindromic dataset the last example is flagged and never the first."
  },
  {
   "property": "C85",
   "status": "proved",
   "theorems": [
    "C85_flags",
    "C85_quantile_unique",
    "C85_ordering",
    "C85_few",
    "C85_threshold",
    "C85_unit",
    "C85_order",
    "C85_outcome",
    "C85_no_other_failure"
   ],
   "note": "Exact rationals for distances and quantiles, reals for exp in the scores. Includes that metric='minkowski' always fails because the exponent p is not passed on."
  },
  {
   "property": "C86",
   "status": "proved",
   "theorems": [
    "C86_flags",
    "C86_monotone",
    "C86_path"
   ],
   "note": "Scores are the reals returned by OutOfDistribution.fit_score (C28); any sorting routine for the median."
  },
  {
   "property": "C87",
   "status": "proved",
   "theorems": [
    "C87_outcome",
    "C87_residual",
    "C87_own"
   ],
   "note": "ModelRegRank.v. Real numbers in place of floats; infinite entries not modelled."
  },
  {
   "property": "C88",
   "status": "proved",
   "theorems": [
    "C88_range",
    "C88_bias",
    "C88_shift",
    "C88_mirror",
    "C88_order",
    "C88_exact_refuted"
   ],
   "note": "ModelRegRank.v on top of ModelOutlier.v; exact nearest neighbours in the plane. C88_exact_refuted: labels 0,0,0,0 and predictions 1,1,1,0: the exact prediction gets the lowest score and the wrong ones score 1."
  },
  {
   "property": "C89",
   "status": "proved",
   "theorems": [
    "C89_flags",
    "C89_residual",
    "C89_input"
   ],
   "note": "ModelRegRank.v. The features path is ModelRegression (C52). C89_example_units: the residual method depends on the unit of the label."
  },
  {
   "property": "C90",
   "status": "proved",
   "theorems": [
    "C90_votes",
    "C90_distribution",
    "C90_own_label",
    "C90_outcome",
    "C90_run",
    "C90_copies_fail",
    "C90_given"
   ],
   "note": "ModelLabelCheck.v. C90_example_copies: three copies with k=1 and two classes make the label check raise ValueError."
  },
  {
   "property": "C91",
   "status": "proved",
   "theorems": [
    "C91_calibrated",
    "C91_custom",
    "C91_custom_near",
    "C91_calibrated_near",
    "C91_choice"
   ],
   "note": "ModelIssueCount.v."
  },
  {
   "property": "C92",
   "status": "partial",
   "theorems": [
    "C92_nested",
    "C92_count_partial",
    "C92_zero",
    "C92_zero_by_class_refuted",
    "C92_ignored"
   ],
   "note": "Partial: the exact count is proved for prune_by_class in classes whose calibrated diagonal reaches min_examples_per_class; with a smaller diagonal prune_by_class can flag an example even with frac_noise=0 (C92_zero_by_class_refuted)."
  },
  {
   "property": "C93",
   "status": "proved",
   "theorems": [
    "C93_valid_iff",
    "C93_trace",
    "C93_two_classes",
    "C93_uninformative",
    "C93_perfect"
   ],
   "note": "exact rational arithmetic"
  },
  {
   "property": "C94",
   "status": "proved",
   "theorems": [
    "C94_matrix",
    "C94_two",
    "C94_rejects"
   ],
   "note": "fuel bounds the loop iterations and is shown sufficient; fewer than 500000 noise rates. C94_two_range_refuted and C94_two_bounds_refuted record that the two-class branch ignores the bounds and does not check the trace"
  },
  {
   "property": "C95",
   "status": "proved",
   "theorems": [
    "C95_flags",
    "C95_never_flags_agreement",
    "C95_rejects_mismatch"
   ],
   "note": "C95_flags for the default num_issue_kwargs; the other two for all settings"
  },
  {
   "property": "C96",
   "status": "partial",
   "theorems": [
    "C96_quality",
    "C96_distributions",
    "C96_majority_vote",
    "C96_best_quality_integers",
    "C96_best_quality_floats_partial",
    "C96_best_quality_refuted"
   ],
   "note": "The quality and consensus_method='majority_vote' parts hold. With the default best_quality the statement is true for integer labels, and for float labels (every DataFrame, every table with missing entries) only when no smaller label is missing from an example's labels; otherwise false: counts of float labels are written to the first positions, so a unanimous label 2 is reported as class 0 with quality 0."
  },
  {
   "property": "C97",
   "status": "proved",
   "theorems": [
    "C97_distribution",
    "C97_order",
    "C97_identity",
    "C97_confidence",
    "C97_sharpen_smooth",
    "C97_rows"
   ],
   "note": "Real arithmetic (exp, ln). Identity and sharpening for entries of at least 1e-30, which the code clips to."
  },
  {
   "property": "C98",
   "status": "partial",
   "theorems": [
    "C98_best_partial",
    "C98_default_partial",
    "C98_last_refuted",
    "C98_floats_refuted"
   ],
   "note": "True for correctly counted labels unless the largest coarse temperature is the best (the fine grid excludes it); float labels with gaps are counted as other classes, so the calibration can flatten perfect predictions."
  },
  {
   "property": "C99",
   "status": "proved",
   "theorems": [
    "C99_scores",
    "C99_missing_class",
    "C99_nothing_to_search"
   ],
   "note": "Real arithmetic (exp, ln); eps is the clipping constant of sklearn's log_loss, arbitrary"
  },
  {
   "property": "C100",
   "status": "partial",
   "theorems": [
    "C100_exchange_partial",
    "C100_nothing_remembered",
    "C100_average_refuted"
   ],
   "note": "The examples exchanged are as stated; the value returned is the average divided once more by the number of examples, so the loss of a batch shrinks with its size."
  },
  {
   "property": "C101",
   "status": "partial",
   "theorems": [
    "C101_schedule_partial",
    "C101_schedule_rejects",
    "C101_schedule_refuted",
    "C101_learning_rate"
   ],
   "note": "forget_rate ** exponent is an arbitrary value 'powered'. The schedule is as stated when powered <= forget_rate (exponent >= 1); for exponents below one it overshoots and drops."
  },
  {
   "property": "C102",
   "status": "proved",
   "theorems": [
    "C102_evaluate",
    "C102_batches",
    "C102_train_accuracy",
    "C102_small_training_set"
   ],
   "note": ""
  },
  {
   "property": "C103",
   "status": "proved",
   "theorems": [
    "C103_returns",
    "C103_one_class",
    "C103_one_other_class"
   ],
   "note": "n_jobs = 1 (C10 covers the process pool), num_to_remove_per_class not passed (C11)"
  },
  {
   "property": "C104",
   "status": "proved",
   "theorems": [
    "C104_labels",
    "C104_label_errors",
    "C104_predictions",
    "C104_features",
    "C104_multilabel",
    "C104_same_check"
   ],
   "note": "One-dimensional labels; C104_same_check links it to the check used in the other models"
  },
  {
   "property": "C105",
   "status": "proved",
   "theorems": [
    "C105_scores",
    "C105_issues",
    "C105_defaults"
   ],
   "note": "Default keyword arguments"
  },
  {
   "property": "C106",
   "status": "partial",
   "theorems": [
    "C106_shown_partial",
    "C106_top_refuted",
    "C106_nothing_to_show",
    "C106_sentences",
    "C106_span_refuted"
   ],
   "note": "As stated for top >= 1 and token classification. top <= 0 prints everything, an empty list of issues raises IndexError, and the display for spans always prints class 0 as the prediction."
  },
  {
   "property": "C107",
   "status": "partial",
   "theorems": [
    "C107_counts",
    "C107_sorted_counts",
    "C107_sizes",
    "C107_distribution_partial",
    "C107_sums_to_one_refuted"
   ],
   "note": "Everything as stated except that the shares add up to one: they are rounded to two decimals, with 201 equally frequent classes all are 0.0."
  },
  {
   "property": "C108",
   "status": "proved",
   "theorems": [
    "C108_convert",
    "C108_format_integers",
    "C108_format_strings",
    "C108_unformatted"
   ],
   "note": "C108_unformatted: a class called nan and fractional labels are left unchanged"
  },
  {
   "property": "C109",
   "status": "proved",
   "theorems": [
    "C109_accepted"
   ],
   "note": "Labels are class numbers (type and string checks: C104)"
  },
  {
   "property": "C110",
   "status": "partial",
   "theorems": [
    "C110_private",
    "C110_errors",
    "C110_unnamed_refuted",
    "C110_names",
    "C110_multilabel_names",
    "C110_label_table"
   ],
   "note": "As stated for get_info with a name (writes of whole entries; nested values are shared). get_info() without a name returns the live dictionary, so a caller's edits change the Datalab."
  },
  {
   "property": "C111",
   "status": "proved",
   "theorems": [
    "C111_contents",
    "C111_no_issues"
   ],
   "note": "The image checks have no section of their own (they are reported by the image adapter, not modelled)"
  },
  {
   "property": "C112",
   "status": "partial",
   "theorems": [
    "C112_info_shown",
    "C112_builtin_printed",
    "C112_printed_values",
    "C112_builtin_partial",
    "C112_underperforming_refuted",
    "C112_too_verbose_refuted",
    "C112_tables"
   ],
   "note": "The report succeeds for the built-in checks at the levels 0 to 2, and at level 3 if only checks with four levels (label, outlier, data valuation) were run. Level 3 raises TypeError with an underperforming group, level 4 ValueError with any check of three levels, and printing an empty list or a list of lists of different lengths never ends (RecursionError)."
  },
  {
   "property": "C113",
   "status": "proved",
   "theorems": [
    "C113_registry",
    "C113_rejected",
    "C113_unknown"
   ],
   "note": ""
  },
  {
   "property": "C114",
   "status": "proved",
   "theorems": [
    "C114_order",
    "C114_counts",
    "C114_tied_refuted"
   ],
   "note": "With ties the pruning filters depend on the order (C114_tied_refuted). n_jobs = 1; C12 shows that the result does not depend on n_jobs."
  },
  {
   "property": "C115",
   "status": "proved",
   "theorems": [
    "C115_names",
    "C115_scores",
    "C115_pruning_refuted",
    "C115_exact_gap_refuted"
   ],
   "note": "prune_by_class depends on the numbering even without ties, because the rounding of the counts breaks its ties by position."
  },
  {
   "property": "C116",
   "status": "proved",
   "theorems": [
    "C116_copies",
    "C116_pruning_refuted"
   ],
   "note": ""
  },
  {
   "property": "C117",
   "status": "proved",
   "theorems": [
    "C117_training",
    "C117_completes",
    "C117_rejects",
    "C117_two_steps",
    "C117_supplied",
    "C117_no_memory",
    "C117_stored",
    "C117_column_refuted",
    "C117_list_features_refuted",
    "C117_integer_flags_refuted",
    "C117_integer_flags_general",
    "C117_nan_given"
   ],
   "note": "Targets that are not numbers and flags stored as integers with pandas targets are not modelled."
  },
  {
   "property": "C118",
   "status": "proved",
   "theorems": [
    "C118_sentence",
    "C118_words",
    "C118_colour",
    "C118_colour_words",
    "C118_shown",
    "C118_process",
    "C118_process_unique",
    "C118_process_chars",
    "C118_full_stop_refuted",
    "C118_backslash_refuted",
    "C118_no_rules_refuted"
   ],
   "note": "The regular expressions are modelled by their meaning for escaped literals and word boundaries; the empty word, empty keys and group references in the replacement are not modelled."
  },
  {
   "property": "C119",
   "status": "proved",
   "theorems": [
    "C119_plain",
    "C119_rejected",
    "C119_images",
    "C119_spurious",
    "C119_unknown",
    "C119_defaults_dropped_refuted",
    "C119_stale_refuted",
    "C119_unlabelled_refuted"
   ],
   "note": "The ordinary audit, CleanVision and the correlation step are arbitrary functions; names outside the seven defaults without parameters raise KeyError (C119_unknown)."
  },
  {
   "property": "C120",
   "status": "proved",
   "theorems": [
    "C120_classification",
    "C120_multilabel",
    "C120_class_label",
    "C120_regression",
    "C120_unlabelled",
    "C120_formats",
    "C120_file",
    "C120_refused",
    "C120_equal",
    "C120_equal_labels",
    "C120_equal_again",
    "C120_unlabelled_code_refuted",
    "C120_ragged_refuted",
    "C120_copy_refuted",
    "C120_equal_labels"
   ],
   "note": "hash of a Dataset is taken to be its identity (object.__hash__); the loaders of the datasets package are arbitrary functions; labels without a total order (None, nan) are not modelled."
  },
  {
   "property": "C121",
   "status": "proved",
   "theorems": [
    "C121_printed",
    "C121_repr",
    "C121_empty_refuted"
   ],
   "note": ""
  },
  {
   "property": "C122",
   "status": "proved",
   "theorems": [
    "C122_used",
    "C122_stored",
    "C122_grows",
    "C122_provided",
    "C122_provided_kept",
    "C122_pred_probs",
    "C122_metric_refuted",
    "C122_pred_probs_refuted",
    "C122_shrinks_refuted",
    "C122_order_refuted"
   ],
   "note": "True for equal features and metric. The refuted theorems show what happens otherwise: a metric label that does not belong to the stored graph, a stored graph of predicted probabilities, a larger graph replaced by a smaller one, and outlier flags that depend on the k of earlier checks."
  },
  {
   "property": "C123",
   "status": "proved",
   "theorems": [
    "C123_thresholds",
    "C123_joint",
    "C123_calibrated",
    "C123_count",
    "C123_predicted_neq_given",
    "C123_predicted_neq_given_raises",
    "C123_calibrated_refuted",
    "C123_calibrated_pairing_refuted",
    "C123_uninitialised_refuted",
    "C123_method_refuted"
   ],
   "note": "calibrate needs every class to occur and one matrix per class; the refuted theorems show the shortened, mispaired or unwritten matrices otherwise, and that num_label_issues ignores estimation_method. find_predicted_neq_given raises when a class is on all or none of the examples."
  },
  {
   "property": "C124",
   "status": "proved",
   "theorems": [
    "C124_noise_free_class",
    "C124_never_flagged",
    "C124_matrices",
    "C124_other_filters_refuted",
    "C124_low_memory_refuted",
    "C124_count_refuted",
    "C124_second_call_refuted"
   ],
   "note": "num_to_remove_per_class is excluded by hypothesis. Boundaries proved as refutations: the other filters and low_memory flag examples of the trusted class; the confident joint's count of the other class is overwritten by 1, so a second call on the same data estimates other class frequencies."
  },
  {
   "property": "C125",
   "status": "proved",
   "theorems": [
    "C125_rows",
    "C125_all",
    "C125_predict",
    "C125_batch_sizes",
    "C125_unnamed",
    "C125_rejects",
    "C125_reordered_refuted",
    "C125_first_examples_refuted"
   ],
   "note": "The network is an argument. Boundaries proved as refutations: with as many indices as examples the answers come in the order of the data, and the indices 0..n-1 with n the number of test examples are answered for the test data."
  },
  {
   "property": "C126",
   "status": "proved",
   "theorems": [
    "C126_epochs",
    "C126_result",
    "C126_completes",
    "C126_class_weights",
    "C126_loss",
    "C126_repeated_refuted",
    "C126_missing_class_refuted",
    "C126_own_weights_refuted",
    "C126_clone_refuted"
   ],
   "note": "The optimiser step is an argument. Boundaries proved as refutations: an index listed twice is trained on twice with its last label, sample weights fail when a class is missing and only the first weight of each class counts, a clone forgets loader and seed."
  },
  {
   "property": "C127",
   "status": "proved",
   "theorems": [
    "C127_split",
    "C127_append",
    "C127_sparse",
    "C127_flatten",
    "C127_compress",
    "C127_images_refuted",
    "C127_vector_refuted",
    "C127_list_refuted",
    "C127_spare_room_refuted",
    "C127_flatten_empty_refuted",
    "C127_compress_refuted"
   ],
   "note": "Boundaries proved as refutations: lending fails for arrays with one or more than two axes, lists cannot be split, a sparse matrix with spare room in its arrays is stacked wrongly."
  },
  {
   "property": "C128",
   "status": "proved",
   "theorems": [
    "C128_score",
    "C128_same_score",
    "C128_matches_flags",
    "C128_table",
    "C128_classes",
    "C128_overlap",
    "C128_counts",
    "C128_parameters",
    "C128_share_refuted",
    "C128_parameters_refuted"
   ],
   "note": "The neighbour search, the argsort and the matrix inverse are arguments. Boundaries proved as refutations: with the default filter score and number of flags of one row differ, and a confident joint, a joint with the number of examples, or parameters without class names make the check fail."
  },
  {
   "property": "C129",
   "status": "proved",
   "theorems": [
    "C129_arrays",
    "C129_scores",
    "C129_order",
    "C129_unlabelled_only",
    "C129_one_model",
    "C129_rejected",
    "C129_calibrated_quality",
    "C129_untouched_refuted",
    "C129_same_array_refuted",
    "C129_failed_call_refuted",
    "C129_uniform_refuted"
   ],
   "note": "Temperature search, scaling, square root and random choice are arguments. Boundaries proved as refutations: the caller's arrays are overwritten, twice when one array is passed for both arguments and also when the call then raises; when the models disagree an unlabelled example can score below 1/K; a single model cannot score unlabelled examples."
  },
  {
   "property": "C130",
   "status": "proved",
   "theorems": [
    "C130_estimates",
    "C130_exact",
    "C130_own_cross_validation",
    "C130_parts",
    "C130_noise_matrix_refuted",
    "C130_methods_refuted"
   ],
   "note": "Two boundary findings: when rounding during calibration leaves a class without any counted example, its column of the returned noise matrix is all zero although the columns are documented to sum to one; when no correctly labelled example of a class is counted, py_method cnt puts its share near zero although examples are counted into it, while marginal gives the counted share."
  },
  {
   "property": "C131",
   "status": "proved",
   "theorems": [
    "C131_exact_issues",
    "C131_exact_margin",
    "C131_scores_separate",
    "C131_exact_counts",
    "C131_exact_noise",
    "C131_class_conditional",
    "C131_exact_pruning",
    "C131_every_filter",
    "C131_uniform",
    "C131_plan",
    "C131_row_maximum_refuted",
    "C131_prune_by_class_refuted"
   ],
   "note": "without the row condition an error can be missed, and prune_by_class can miss errors that the default filter finds; both shown by example"
  },
  {
   "property": "C132",
   "status": "proved",
   "theorems": [
    "C132_training",
    "C132_training_low_memory",
    "C132_batched",
    "C132_tokens",
    "C132_tokens_any_filter",
    "C132_pixels",
    "C132_multilabel",
    "C132_multilabel_uniform"
   ],
   "note": "fit: new object, labels in an array, no noise rates, thresholds or joint passed, all of the estimated noise to be removed; segmentation without downsampling; multi-label with the filters confident_learning and predicted_neq_given"
  },
  {
   "property": "C133",
   "status": "proved",
   "theorems": [
    "C133_disagreements_removed",
    "C133_relabelled",
    "C133_binary",
    "C133_separating",
    "C133_second_round_refuted",
    "C133_pruned_fraction_refuted"
   ],
   "note": "with three classes a second round of confident learning can flag examples the first kept (removing an example above its class average lowers the threshold); pruning a fraction of the noise leaves the rest to the next round"
  },
  {
   "property": "C134",
   "status": "proved",
   "theorems": [
    "C134_issues",
    "C134_counts",
    "C134_thresholds",
    "C134_scores",
    "C134_near_tie_refuted"
   ],
   "note": "scores: self_confidence and normalized_margin without adjustment; the model computes with exact numbers, so this also bounds what floating point rounding of the inputs can change"
  },
  {
   "property": "C135",
   "status": "proved",
   "theorems": [
    "C135_rule",
    "C135_issues",
    "C135_count",
    "C135_scores",
    "C135_low_filter_refuted"
   ],
   "note": "the low-score filters are refuted by example"
  },
  {
   "property": "C136",
   "status": "proved",
   "theorems": [
    "C136_thresholds",
    "C136_issues",
    "C136_scores",
    "C136_likelier_refuted"
   ],
   "note": "the additional class is the last one (any other position is a renumbering, C115); the refutation is for a column above the given label"
  },
  {
   "property": "C137",
   "status": "proved",
   "theorems": [
    "C137_agreement",
    "C137_overlooked",
    "C137_bad_location",
    "C137_swapped",
    "C137_swap_missed_refuted"
   ],
   "note": "without a pair of boxes of little similarity in the data set no swapped label is found: the least similarity bounds the swap scores from below (C137_swap_missed_refuted)"
  },
  {
   "property": "C138",
   "status": "proved",
   "theorems": [
    "C138_examples",
    "C138_classes",
    "C138_sentences",
    "C138_batched",
    "C138_batched_tied_refuted"
   ],
   "note": "with tied scores the batched search flags another of the tied examples after reordering (C138_batched_tied_refuted)"
  },
  {
   "property": "C139",
   "status": "proved",
   "theorems": [
    "C139_ids",
    "C139_out_of_sample",
    "C139_own_label",
    "C139_rejects",
    "C139_told",
    "C139_prior",
    "C139_always_present_refuted"
   ],
   "note": "for data where every class is present on some and absent from some example; a class present on every example is trained as absent (C139_told, C139_always_present_refuted), because cross_val_predict re-encodes the columns of the labels"
  },
  {
   "property": "C140",
   "status": "proved",
   "theorems": [
    "C140_default",
    "C140_reported",
    "C140_flagged_differs",
    "C140_predicted_neq_given",
    "C140_keywords",
    "C140_universal_class_raises",
    "C140_low_refuted"
   ],
   "note": "the low_* filters flag examples whose predicted labels equal the given ones (C140_low_refuted); low_memory=True not included; softmin aggregation not modelled"
  },
  {
   "property": "C141",
   "status": "proved",
   "theorems": [
    "C141_majority_vote",
    "C141_no_draw",
    "C141_draw_order_refuted",
    "C141_quality",
    "C141_quality_ensemble",
    "C141_active"
   ],
   "note": "for any table, any permutation of its examples, any predicted probabilities and any number of models; np.sqrt abstract (positive, respects equality); a random choice left after all tie-breaks is made per example (C141_draw_order_refuted: a generator consumed in row order does not move along)"
  },
  {
   "property": "C142",
   "status": "partial",
   "theorems": [
    "C142_consistent",
    "C142_no_labels",
    "C142_confident_joint_refuted",
    "C142_label_noise_refuted"
   ],
   "note": "The agreement of the three parts without a confident joint and the error without labels are proved. Refuted: rank_classes_by_multilabel_quality forwards joint instead of confident_joint, so with a confident joint the class table contradicts the rest; Label Noise is divided by all examples."
  },
  {
   "property": "C143",
   "status": "proved",
   "theorems": [
    "C143_one_model",
    "C143_model_order",
    "C143_better_model"
   ],
   "note": ""
  },
  {
   "property": "C144",
   "status": "proved",
   "theorems": [
    "C144_imbalance",
    "C144_null",
    "C144_underperforming",
    "C144_valuation",
    "C144_near_duplicates",
    "C144_outliers_pred_probs",
    "C144_flagged_group_refuted"
   ],
   "note": "the kNN outlier check is covered by C85_order; C144_flagged_group_refuted is a witness that the flagged group depends on the visiting order of the set of ids"
  },
  {
   "property": "C145",
   "status": "proved",
   "theorems": [
    "C145_scores",
    "C145_moves",
    "C145_mask_given_precision",
    "C145_precision",
    "C145_mask",
    "C145_tied_probabilities_refuted"
   ],
   "note": "for every distance function with values in [0, 1] (_euc_dis is one); C145_tied_probabilities_refuted is the witness that ties matter for the mask"
  },
  {
   "property": "C146",
   "status": "proved",
   "theorems": [
    "C146_near_duplicates",
    "C146_outliers",
    "C146_estimator",
    "C146_tiny_units_refuted"
   ],
   "note": "Distances scaled by any positive factor; the median distance must not be below 1e-6 in either unit (the floor the code uses), which the refutation shows to be needed."
  },
  {
   "property": "C147",
   "status": "proved",
   "theorems": [
    "C147_issues",
    "C147_errors",
    "C147_scores",
    "C147_filter",
    "C147_common_tokens",
    "C147_common_swaps"
   ],
   "note": ""
  },
  {
   "property": "C148",
   "status": "proved",
   "theorems": [
    "C148_rerun",
    "C148_order",
    "C148_alone",
    "C148_more_neighbors_refuted",
    "C148_order_refuted"
   ],
   "note": "The condition that the first check asks for the largest number of neighbours is needed, as the two refutations show."
  },
  {
   "property": "C149",
   "status": "proved",
   "theorems": [
    "C149_containers",
    "C149_array",
    "C149_documented",
    "C149_other_array",
    "C149_rejected",
    "C149_binary_refuted",
    "C149_list_of_rows_refuted"
   ],
   "note": "Exact for every table. The refutations record a false positive (binary columns) and two container pitfalls."
  },
  {
   "property": "C150",
   "status": "proved",
   "theorems": [
    "C150_arguments",
    "C150_given_or_computed",
    "C150_counted",
    "C150_labels",
    "C150_recorded_params_refuted"
   ],
   "note": "DBSCAN is an arbitrary function of the arguments it receives and the graph."
  },
  {
   "property": "C151",
   "status": "proved",
   "theorems": [
    "C151_votes",
    "C151_votes_with_probabilities",
    "C151_quality",
    "C151_ensemble",
    "C151_active",
    "C151_draw_refuted",
    "C151_tied_prediction_refuted",
    "C151_worst_class_refuted"
   ],
   "note": "Random draws, tied predictions and labels of an annotator tied in everything are where the numbering shows; each has a counterexample."
  },
  {
   "property": "C152",
   "status": "proved",
   "theorems": [
    "C152_estimator",
    "C152_imbalance",
    "C152_imbalance_tied_refuted",
    "C152_imbalance_absent_refuted",
    "C152_valuation",
    "C152_underperforming",
    "C152_features",
    "C152_scores",
    "C152_batched",
    "C152_tokens",
    "C152_tokens_low_memory",
    "C152_token_scores",
    "C152_segmentation",
    "C152_pixel_scores",
    "C152_downsampled_refuted"
   ],
   "note": "Proved as stated; the exceptions named in the statement (tied or absent classes in the imbalance check, downsampling) are the refuted theorems."
  },
  {
   "property": "C153",
   "status": "proved",
   "theorems": [
    "C153_crowdlab",
    "C153_ensemble",
    "C153_annotator",
    "C153_annotator_ensemble",
    "C153_active"
   ],
   "note": "Proved as stated, in exact arithmetic and without temperature scaling (the scaled probabilities are the input)."
  },
  {
   "property": "C154",
   "status": "proved",
   "theorems": [
    "C154_silent",
    "C154_shown",
    "C154_names",
    "C154_audit"
   ],
   "note": "CleanVision, the classifier scored on a property and the drawing of the images are oracles; C154_failed_refuted: when CleanVision fails after scoring, the report raises KeyError; C154_zero_refuted: a threshold of 0 switches the report off; C154_same_name_refuted: a check whose name contains _score is printed under another name"
  },
  {
   "property": "C155",
   "status": "proved",
   "theorems": [
    "C155_issues",
    "C155_arrangements",
    "C155_images",
    "C155_image_scores",
    "C155_pixel_scores",
    "C155_common",
    "C155_filter"
   ],
   "note": "C155_tied_refuted: with tied label probabilities the flagged pixel depends on the arrangement; C155_downsampled_refuted: with downsampling it matters which pixels share a square"
  },
  {
   "property": "C156",
   "status": "proved",
   "theorems": [
    "C156_scores",
    "C156_given_boxes",
    "C156_predicted_boxes",
    "C156_precision",
    "C156_flags",
    "C156_annotations_only_refuted"
   ],
   "note": ""
  },
  {
   "property": "C157",
   "status": "proved",
   "theorems": [
    "C157_labels",
    "C157_ensemble",
    "C157_multilabel_classes",
    "C157_multilabel",
    "C157_tokens",
    "C157_pixels",
    "C157_residual",
    "C157_ood_probabilities",
    "C157_ood_features",
    "C157_badloc",
    "C157_images",
    "C157_adjusted_refuted",
    "C157_accuracy_refuted",
    "C157_parts_refuted",
    "C157_overlooked_refuted"
   ],
   "note": "The boundary cases of the statement are proved by the _refuted theorems."
  },
  {
   "property": "C158",
   "status": "proved",
   "theorems": [
    "C158_calibration",
    "C158_other_filters",
    "C158_total",
    "C158_missing_class",
    "C158_by_class",
    "C158_agreement",
    "C158_two_classes",
    "C158_three_classes_refuted",
    "C158_missing_refuted"
   ],
   "note": "A single predicted class (numpy broadcasts the one-column matrix) is not modelled.  Refutations: with three classes the baseline is not predicted_neq_given; with a class that is never predicted or never given it raises where find_label_issues answers."
  },
  {
   "property": "C159",
   "status": "proved",
   "theorems": [
    "C159_majority_vote",
    "C159_quality",
    "C159_quality_ensemble",
    "C159_active",
    "C159_scores",
    "C159_imbalance",
    "C159_multilabel",
    "C159_images",
    "C159_draw_refuted"
   ],
   "note": "multi-annotator consensus, adjusted quality scores, class imbalance, multi-label issues and image scores of repeated data; C116 is the single-label counterpart"
  },
  {
   "property": "C160",
   "status": "proved",
   "theorems": [
    "C160_notes",
    "C160_section",
    "C160_silent_refuted"
   ],
   "note": "counts in the notes of the null report and when they are shown"
  },
  {
   "property": "C161",
   "status": "proved",
   "theorems": [
    "C161_shares",
    "C161_bound",
    "C161_relative",
    "C161_sign_refuted",
    "C161_order_refuted"
   ],
   "note": "exact Shapley values of k-nearest-neighbour classification, defined over all orders of the examples, against the scores returned"
  },
  {
   "property": "C162",
   "status": "proved",
   "theorems": [
    "C162_best",
    "C162_usual_errors",
    "C162_rows",
    "C162_calibrated"
   ],
   "note": "Optimality among all integer lists with the same sum, for every convex cost."
  },
  {
   "property": "C163",
   "status": "partial",
   "theorems": [
    "C163_count_partial",
    "C163_two_classes_count",
    "C163_same_issues_partial",
    "C163_two_classes",
    "C163_three_classes_refuted",
    "C163_missing_class_refuted",
    "C163_calibrated_refuted"
   ],
   "note": "Exact agreement for two classes; in general the standard count exceeds the batched one by the number of overlooked examples. False as documented for three classes (0 against 3), for classes without examples, and for calibrated counting."
  },
  {
   "property": "C164",
   "status": "partial",
   "theorems": [
    "C164_at_least_partial",
    "C164_bound",
    "C164_always_refuted"
   ],
   "note": "True when every class has an example not confidently counted elsewhere; off by at most one per remaining class otherwise. The documented 'always' is false (2 against 1)."
  },
  {
   "property": "C165",
   "status": "proved",
   "theorems": [
    "C165_one_function",
    "C165_temperature",
    "C165_low",
    "C165_high"
   ],
   "note": ""
  },
  {
   "property": "C166",
   "status": "partial",
   "theorems": [
    "C166_raise_partial",
    "C166_too_high",
    "C166_warm",
    "C166_tokens_refuted",
    "C166_boxes_refuted"
   ],
   "note": "Exact dividing line: one temperature above the pooled score. False in general at the default temperatures (refuted for tokens and boxes)."
  },
  {
   "property": "C167",
   "status": "proved",
   "theorems": [
    "C167_joint",
    "C167_estimates",
    "C167_flags",
    "C167_collisions_refuted"
   ],
   "note": "The condition on examples confident for two classes is needed (refuted without)."
  },
  {
   "property": "C168",
   "status": "proved",
   "theorems": [
    "C168_thresholds",
    "C168_joint",
    "C168_flags",
    "C168_scores",
    "C168_prune_refuted"
   ],
   "note": "Proved for confident_learning; the pruning filters are refuted by an example."
  },
  {
   "property": "C169",
   "status": "proved",
   "theorems": [
    "C169_only",
    "C169_between",
    "C169_monotone",
    "C169_move",
    "C169_priority"
   ],
   "note": "C169_between assumes weights that add up to exactly 1 (the library accepts 1 +- 1.001e-5)."
  },
  {
   "property": "C170",
   "status": "proved",
   "theorems": [
    "C170_thresholds",
    "C170_flags",
    "C170_last_refuted"
   ],
   "note": "Replacing the only example of a class is excluded by the quantifier; C170_last_refuted shows why."
  },
  {
   "property": "C171",
   "status": "proved",
   "theorems": [
    "C171_counts",
    "C171_counts_multi",
    "C171_compact",
    "C171_words",
    "C171_outside",
    "C171_outside_refuted",
    "C171_negative_refuted",
    "C171_far_below",
    "C171_unique",
    "C171_missing",
    "C171_missing_options",
    "C171_mixed_refuted",
    "C171_number",
    "C171_number_refuted"
   ],
   "note": "Boundary cases: labels [0, 2] with num_classes=2 are counted as [1, 1] without an error; a negative label is counted at the index from the end, or lost; the mixed form [1, [1,2], ...] that the docstring of get_unique_classes shows always raises TypeError; the number of classes found from labels that skip a class is not above every label."
  },
  {
   "property": "C172",
   "status": "proved",
   "theorems": [
    "C172_flags",
    "C172_scores",
    "C172_gap_refuted",
    "C172_three_refuted"
   ],
   "note": "for two exclusive classes the multi-label and multi-class filters and scores coincide; a gap of exactly the tolerance 1e-6 for label 0 is decided differently and three exclusive classes differ, both shown by counterexamples"
  },
  {
   "property": "C173",
   "status": "proved",
   "theorems": [
    "C173_same",
    "C173_refused",
    "C173_features",
    "C173_feature_errors",
    "C173_predictions",
    "C173_prediction_errors",
    "C173_nested",
    "C173_nested_error",
    "C173_multilabel",
    "C173_multilabel_assertion",
    "C173_multilabel_errors",
    "C173_multilabel_refuted",
    "C173_features_refuted"
   ],
   "note": "containers, feature objects and prediction objects as data types; boundary findings: multi-label classes that are negative or fractional pass the check, and features are not looked at when predictions are given"
  },
  {
   "property": "C174",
   "status": "proved",
   "theorems": [
    "C174_names",
    "C174_name_error",
    "C174_default",
    "C174_moving_average",
    "C174_ignored",
    "C174_softmin",
    "C174_custom",
    "C174_refused",
    "C174_entropy_adjusted",
    "C174_entropy_error",
    "C174_entropy",
    "C174_per_class",
    "C174_weight_refuted"
   ],
   "note": "softmin, the entropy score and user functions are arguments of the model; boundary finding: naming the default method without alpha does not give the default scores (weight 2/(K+1)), and a misspelt alpha is silently ignored"
  },
  {
   "property": "C175",
   "status": "proved",
   "theorems": [
    "C175_accepted",
    "C175_errors",
    "C175_attributes",
    "C175_levels",
    "C175_unsupported",
    "C175_shown",
    "C175_missing",
    "C175_top",
    "C175_higher_refuted",
    "C175_order_refuted",
    "C175_inherited_name_refuted",
    "C175_inherited_levels_refuted"
   ],
   "note": "Single inheritance. The report picks levels by position in the dictionary, not by number: with levels that do not start at 0, or in another order, entries of higher levels are shown or requested ones left out (two refutations). Levels inherited from an abstract class are never checked (refutation)."
  },
  {
   "property": "C176",
   "status": "proved",
   "theorems": [
    "C176_issues",
    "C176_thresholds",
    "C176_counts",
    "C176_lowest_refuted",
    "C176_confused_refuted"
   ],
   "note": "For the filters low_self_confidence and low_normalized_margin, which flag the lowest scores of the whole, the statement is false (C176_lowest_refuted); likewise once the model confuses classes of the two data sets (C176_confused_refuted). The pruning filters are not covered: they round calibrated counts, whose ties depend on the argsort."
  },
  {
   "property": "C177",
   "status": "proved",
   "theorems": [
    "C177_bound",
    "C177_margin",
    "C177_predicted",
    "C177_total",
    "C177_one_class",
    "C177_adjusted_argmax_refuted"
   ],
   "note": "with the default adjustment an example carrying the predicted label may still score below its out-of-distribution score, and labels of a single class are refused by the adjusted out-of-distribution score but not by the label quality score"
  },
  {
   "property": "C178",
   "status": "proved",
   "theorems": [
    "C178_majority_caution",
    "C178_quality_caution",
    "C178_majority_lost",
    "C178_quality_majority_lost",
    "C178_best_quality_refuted"
   ],
   "note": "for consensus_method='best_quality' the wording of the caution (number of classes reduced, classes rarely annotated) can be wrong: proved as a refutation"
  },
  {
   "property": "C179",
   "status": "proved",
   "theorems": [
    "C179_calibrate",
    "C179_joint",
    "C179_num_issues",
    "C179_idempotent",
    "C179_find_label_issues_refuted"
   ],
   "note": "find_label_issues with a pruning method uses the supplied matrix uncalibrated, so there the scale does matter: proved as a refutation"
  },
  {
   "property": "C180",
   "status": "proved",
   "theorems": [
    "C180_scale",
    "C180_rows",
    "C180_columns",
    "C180_rows_refuted"
   ],
   "note": "a factor for each given label does change the default prior and the noise matrix, although it does not change the calibrated confident joint (C179): proved as a refutation"
  },
  {
   "property": "C181",
   "status": "proved",
   "theorems": [
    "C181_classes",
    "C181_overlap",
    "C181_score",
    "C181_summary",
    "C181_proportions",
    "C181_score_refuted",
    "C181_counts_refuted"
   ],
   "note": "two exceptions proved as refutations: the score from labels and pred_probs differs from the score of the joint estimated from them, and without labels the scale of the confident joint changes the number of overlapping examples (C50: the confident joint alone is refused by rank_classes_by_label_quality)"
  },
  {
   "property": "C182",
   "status": "proved",
   "theorems": [
    "C182_find",
    "C182_find_ignored",
    "C182_count",
    "C182_count_ignored",
    "C182_uncalibrated_refuted"
   ],
   "note": "compute_confident_joint(calibrate=False) is not interchangeable with the default: proved as a refutation"
  },
  {
   "property": "C183",
   "status": "proved",
   "theorems": [
    "C183_find",
    "C183_joint"
   ],
   "note": "estimate_joint is covered only when every class from 0 to K-1 occurs in some example"
  },
  {
   "property": "C184",
   "status": "proved",
   "theorems": [
    "C184_ps_optional",
    "C184_py_optional",
    "C184_cnt_by_counts",
    "C184_from_labels",
    "C184_cnt_zero_diagonal_refuted"
   ],
   "note": "exact rational arithmetic; np.linalg.inv is any left inverse; with an empty diagonal entry the claimed equivalence is proved false"
  },
  {
   "property": "C185",
   "status": "proved",
   "theorems": [
    "C185_value",
    "C185_f1",
    "C185_nan",
    "C185_f1_refuted",
    "C185_compress",
    "C185_compress_refuted"
   ],
   "note": "exact rational arithmetic; that estimate_pu_f1 is an F1 score, and that compression keeps larger values, are proved false"
  },
  {
   "property": "C186",
   "status": "proved",
   "theorems": [
    "C186_printed",
    "C186_names",
    "C186_vector_raises"
   ],
   "note": "str of a number and rounding are arbitrary functions; the text of a number contains no tab"
  }
 ]
}