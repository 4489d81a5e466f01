# Formal model of cleanlab in Rocq (Coq 8.16.1)

## Layout

`rocq/theories/` contains, per area `X`:

* `ModelX.v` - executable (total, computable) Gallina model of the code, function by function, each
  definition carrying the file and lines of `/repo` it follows.  No proofs.
* `SpecX.v` - the small independent vocabulary in which the properties are stated (counting,
  "is a permutation of", "is the average of", ...).  It does not mention the model.
* `ProofX.v` - lemmas.
* `PropX.v` - only property theorems, closed by `exact lemma` (refutations and examples may contain a short
  computation), each with its `Print Assumptions`, and `Example`s exhibiting a concrete non-trivial input
  meeting the hypotheses.

`Base.v`/`BaseFacts.v` hold the array vocabulary (sums, argmax, argsort specification, masks, slices).
`properties.jsonl` lists the properties, `MANIFEST.json` the theorems per property and their status,
`seeded/LOG.jsonl` the mutation tests (wrong programs tried against the theorems).

Naming: `Cnn_..._partial` proves the property for part of its range (the note and the section on the property
say what is missing); `Cnn_..._refuted` proves that a clause of the property, or a natural strengthening of it,
is false of the code, with a concrete or general counterexample.

## Trusted base

* **Kernel**: Coq 8.16.1 with its `vm_compute` machine (used in examples and refutations).  No axioms are
  declared in this development, nothing is admitted, no plugin is used.
* **Axioms of the standard library**: what `Print Assumptions` reports is tabulated at the end.  Theorems over
  naturals, integers and rationals are closed.  Theorems over the reals depend on the axioms of the standard
  library's construction of the reals.
* **The model follows the code.**  This is by reading; every definition cites the lines it follows and says where
  it simplifies.  The simplifications made throughout:
  * *Numbers*: floating point numbers are exact rationals `Q` (compared with `==`), or reals `R` where `exp`,
    `log`, `sqrt`, `tanh` occur.  Rounding error, overflow, NaN and infinities are not modelled; where the code
    would produce NaN or inf (division by zero, mean of nothing) the model returns an error or `None`, or the theorem
    has a hypothesis excluding it.  The tolerance constants (1e-6, 2e-6, 1e-30, 1e-100, ...) are modelled exactly.
  * *Arrays* are lists; a 2-d array is a list of rows.  Fancy indexing, masks, `argmax` (first maximum),
    `np.where`, `np.unique` are list functions.
  * *Sorting*: `np.argsort`'s default sort is not stable, so every model function that sorts takes the sorting
    function as an argument and every theorem quantifies over all functions returning a sorting permutation.
  * *Randomness, classifiers, regressors, nearest-neighbour backends, kernel density estimates, pickling, the
    process schedule*: arguments (streams, oracles, schedules) over which the theorems quantify.
  * *Exceptions* are values (`res`: `Ok` or `Raise` with an exception class); messages and warnings are dropped.
  * *Loops* that may not terminate take fuel; running out of fuel is `Raise Diverges`, and theorems either prove that it
    does not happen or state the result for terminating runs.
  * *File system* (C46): a directory with file contents and a crash point after every primitive write.
* Not modelled anywhere: printing, plotting, progress bars, pandas index metadata, most dtype conversion (where the
  dtype matters it is modelled: C48, C96, C98), input type dispatch (list, ndarray, DataFrame, torch, tf), and the third-party
  libraries except through the oracles above.

## Which code is modelled

| model | code |
|---|---|
| ModelUtil | internal/util.py (value_counts, round_preserving_sum/row_totals, clip_noise_rates, clip_values, remove_noise_from_class), internal/constants.py, internal/validation.py (class counts) |
| ModelCount, ModelIssueCount | count.py single-label: get_confident_thresholds, compute_confident_joint, calibrate_confident_joint, estimate_joint, num_label_issues with its methods |
| ModelLatent | internal/latent_algebra.py, count.py estimate_latent, estimate_py_and_noise_matrices_from_probabilities, converge_estimates |
| ModelCV | count.py estimate_confident_joint_and_cv_pred_proba, regression/learn.py cross-validation loops |
| ModelFilter, ModelPool | filter.py single-label (all filter_by modes, multiprocessing as an arbitrary schedule) |
| ModelRank, ModelEntropy | rank.py scores, ensembles, top issues; internal/label_quality_utils.py |
| ModelBatched | experimental/label_issues_batched.py |
| ModelLabels | internal/multilabel_utils.py conversions, datalab/internal/data.py label formatting |
| ModelNoise, ModelTrace | benchmarking/noise_generation.py, data_valuation.py |
| ModelOutlier | outlier.py, internal/outlier.py |
| ModelToken | token_classification/{filter,rank,summary}.py, internal/token_classification_utils.py |
| ModelSegmentation | segmentation/{filter,rank,summary}.py, internal/segmentation_utils.py |
| ModelMultilabel | multilabel_classification/*, internal/multilabel_scorer.py, the multi-label parts of filter.py and count.py |
| ModelMultiannotator, ModelAgreement, ModelTemperature | multiannotator.py, internal/multiannotator_utils.py, internal/numerics.py |
| ModelDetection | object_detection/{rank,filter,summary}.py, internal/object_detection_utils.py |
| ModelKnn | internal/neighbor/{knn_graph,metric}.py, issue_manager/knn_graph_helpers.py, issue_manager/duplicate.py |
| ModelChecks, ModelLabelCheck, ModelNoniid, ModelOutlierCheck | datalab/internal/issue_manager/{imbalance,null,identifier_column,underperforming_group,data_valuation,label,noniid,outlier}.py |
| ModelDatalab | datalab/internal/{data_issues,issue_finder,issue_manager_factory,serialize,spurious_correlation}.py, adapter/imagelab.py |
| ModelDataset | dataset.py |
| ModelLearn | classification.py (CleanLearning) |
| ModelRegression, ModelRegRank | regression/{learn,rank}.py, internal/regression_utils.py, issue_manager/regression/label.py |
| ModelLogLoss | rank.py ensemble weights by log loss (sklearn log_loss) |
| ModelCoteaching | experimental/coteaching.py |
| ModelValid | internal/validation.py 13-112 (input checks, numeric or string labels) |
| ModelSpan | experimental/span_classification.py |
| ModelDisplay | display_issues of token_classification/summary.py and span_classification.py (entries printed, not the sentence text) |
| ModelDetSummary | object_detection/summary.py 48-236, 653-674 (counts, sizes, class shares) |
| ModelWide | multiannotator.py convert_long_to_wide_dataset, multiannotator_utils.py format_multiannotator_labels |
| ModelReport | datalab get_info, get_issues columns, report (report.py, issue_manager.py), registry (issue_manager_factory.py); info dictionaries on a heap |
| ModelRegLearn | regression/learn.py 128-306, 362-535 (the search itself: ModelRegression), 608-623, 837-871, util.py 437-468, regression_utils.py 51-113; the wrapped model, its folds per run and whether its training succeeds are arguments |
| ModelText | token_classification_utils.py get_sentence, process_token, color_sentence, _replace_sentence (regular expressions by their meaning for escaped literals and word boundaries; which characters are word characters or white space is an argument) |
| ModelImage | adapter/imagelab.py 310-431 (`_get_imagelab_issue_types`, `find_issues`, `handle_spurious_correlations`), adapter/constants.py, datalab.py 335-352; the ordinary audit, CleanVision's search and the correlation computation are arguments |
| ModelData | datalab/internal/data.py (loading, labels, equality, hash) and display.py (`print`, `repr`); the datasets package, the file system and the hub are arguments, `hash(Dataset)` is the identity of the object |
| ModelGraph | the neighbour graph shared by outlier.py, duplicate.py, noniid.py, underperforming_group.py and data_valuation.py: which graph each check uses and what is kept in info['statistics'] |
| ModelMultiCount | count.py:50-173 and 176-210 `num_label_issues` (multi-label branch), 294-327 `_calibrate_confident_joint_multilabel`, 330-442 `estimate_joint` (multi-label branch), 1461-1490 `_get_confident_thresholds_multilabel`; filter.py:672-698 `_find_predicted_neq_given_multilabel`. The uninitialised result array is a list of options. |
| ModelCnn | experimental/mnist_pytorch.py 43-80 and 172-370: the choice of the data, predict_proba, predict, fit, get_params as used by sklearn.clone, and F.nll_loss with class weights. The network's forward pass and the optimiser step are arguments; MNIST download, printing, CUDA and the layers of SimpleNet are not modelled. |
| ModelFeatures | internal/util.py 387-399, 402-434, 482-516 and 598-616 on dense arrays (shape and row-major entries), pandas objects, sparse matrices (data, indices, indptr, shape), lists and torch datasets. A sparse slice X[idx] is modelled as stacking the rows. |
| ModelLabelInfo | Datalab's label check beyond its flags (issue_manager/label.py:57-273): parameters of the health summary, summary score, info. Builds on ModelLabelCheck, ModelLearn, ModelDataset. Printed output and verbosity not modelled. |
| ModelActive | multiannotator.py:729-894 `get_active_learning_scores_ensemble`, 415-490 (calibration in `get_label_quality_multiannotator_ensemble`), multiannotator_utils.py:128-187 `assert_valid_pred_probs` (ensemble); arrays live in a heap and are passed by reference because both functions assign to `pred_probs[i]`; temperature search and scaling are arguments; overlapping views are not modelled |
| ModelEstimate | count.py 799-885, 1059-1328: the estimators chaining cross-validation, confident joint and latent estimates. The classifier, the split into folds, argsort and set order are arguments; py_method eqn (matrix inverse) is not modelled here |
| ModelMultiCV | internal/multilabel_scorer.py:559-652 (multilabel_py, _get_split_generator, get_cross_validated_multilabel_pred_probs). `cv.split` and the classifier are arbitrary functions. sklearn's cross_val_predict (not in /repo) is written down from its documentation and source: permutation check, LabelEncoder per column, fit and predict per split, inverse permutation; predictions are arrays. |
| ModelMultiCheck | datalab/internal/issue_manager/multilabel/label.py: the keyword processing, `find_issues`, `collect_info`. Keyword arguments are a dictionary of typed values; a value of a wrong type is a TypeError, where Python would fail later. Only the exponential moving average among the aggregators |
| (C141 uses ModelMultiannotator) | SpecRows/ProofRows/PropRows: reordering of the examples |
| ModelMultiHealth | multilabel_classification/dataset.py:100-326: the argument handling of rank_classes_by_multilabel_quality / common_multilabel_issues / overall_multilabel_health_score and multilabel_health_summary (printing and class_names left out); the tables themselves are in ModelMultilabel |
| ModelIdentifier | identifier_column.py:47-131: numpy arrays, DataFrames, dicts and lists of features turned into columns, then the check of ModelChecks. Simplified: what numpy makes of a column is either integers or something else; columns of unequal lengths in a dict are not distinguished |
| ModelGroups | underperforming_group.py:79-155, 229-268, 294-330: where the clusters come from, the arguments of DBSCAN, and the recorded info (the comparison of clusters is in ModelChecks, the choice of the graph in ModelGraph). DBSCAN and its signature are oracles |
| ModelCorrReport | `CorrelationReporter` (adapter/imagelab.py 186-256), when `ImagelabReporterAdapter` builds and calls it (259-296), the entry stored by `handle_spurious_correlations` (413-431) and `CorrelationCalculator`'s table (spurious_correlation.py 18-46); printing is the returned record of what is shown, the drawing of the images is left out |
| ModelConfusion | `confusion_matrix`, `find_label_issues_using_argmax_confusion_matrix`. The matrix has one row per given and one column per predicted class; the exceptions of the pruning filters for a matrix that is not K x K are modelled, the broadcasting of a single column is not (`OtherError`). |
| ModelNullReport | issue_manager/null.py `report` (the two notes about missing values), on top of the base report in ModelReport; the wording of the notes is left out |
| ModelBoxPool | object_detection/rank.py 976-1014 `pool_box_scores_per_image` with its default temperature |
| ModelClasses | `cleanlab/internal/util.py`: value_counts, get_unique_classes, num_unique_classes, get_num_classes, get_missing_classes (113-191, 518-560), labels being integers, other ordered values or lists |
| ModelContainer | internal/validation.py 13-81 and 115-212 for objects of any type: [labels_to_array] (list, array, series, frame, scalar), [labels_to_list_multilabel], [assert_indexing_works], the checks of features and predictions. Feature objects answer to len, shape and indexing by given functions; nested lists are trees. Not modelled: warnings, dtypes other than number or string. |
| ModelScorer | internal/multilabel_scorer.py 65-131 [ClassLabelScorer], 236-300 [Aggregator], 328-340 [MultilabelScorer.__init__] and multilabel_classification/rank.py 37-179 on top of ModelMultilabel: names, keyword dictionaries, order of the errors. [softmin], the entropy score and functions of the user are arguments. Strings are ASCII. |
| ModelCustom | definition of custom checks: IssueManagerMeta.__new__, IssueManager's class attributes (issue_manager.py:24-132) and the choice of info entries by verbosity (240-247, 281-288, 313-314); single inheritance, class bodies reduced to ABC / issue_name / issue_score_key / verbosity_levels |
| ModelLost | internal/multiannotator_utils.py:235-252 check_consensus_label_classes and the places that call it with verbose (multiannotator.py:263-269, 1052-1058); the printed text is reduced to the set of classes it names; the ensemble version (492-498) makes the same call and is not modelled separately |
| ModelLatentPs | internal/latent_algebra.py:18-36 (compute_ps_py_inv_noise_matrix). `np.linalg.inv` is an argument. |
| ModelPuF1 | internal/util.py:251-271, 387-399 (estimate_pu_f1, compress_int_array). `astype` keeps the lowest bits. |
| ModelPrintMatrix | internal/util.py:314-384 (print_square_matrix, print_noise_matrix, print_inverse_noise_matrix, print_joint_matrix): the printed lines and the exception that ends the printing. `str` of a number and `round` are arguments. |
| PropDocExamples | No property of its own: examples copied from docstrings (multilabel_scorer, multilabel_utils, multilabel_classification/rank, token_classification rank, filter and summary, token_classification_utils), each computed by the model and compared with the printed result. Evidence that the definitions are the code's. |
| PropSuiteExamples | No property of its own: inputs and expected results copied from /repo/tests (token, span and multilabel classification, multiannotator majority votes, util), computed by the models. The suite itself is never run. |
| PropSuiteCore | As PropSuiteExamples, for tests/test_filter_count.py and tests/test_latent_algebra.py: missing classes under five filter methods, the confident joint with a class removed, argmax confusion matrices, multilabel masks, the noise-matrix identities. |
| PropSuiteLab | As PropSuiteExamples, for tests/datalab/issue_manager (identifier columns, missing values, class imbalance) and tests/internal/neighbor (correction of exact duplicates, for any distance in place of the square root of 2). |

Not modelled: experimental/{cifar_cnn,mnist_pytorch}.py (network definitions), datalab/internal/{helper_factory,model_outputs}.py
(dispatch and formatting), datalab/datalab.py beyond the calls into the parts above, version.py, the plotting functions
of object_detection/summary.py and segmentation/summary.py, the correction of adjusted predictions by torch/tf data loaders.

## The properties

For each: status, how it is proved, its theorems (file), and remarks.  The mark [A1], [A2], ... refers to the table of axioms at the end; no mark means "Closed under the global context".

### C01 - Sum-preserving rounding (proved)

Fuelled model of the adjustment loop; one pass suffices because the accumulated rounding error is bounded by half the number of entries and each unit goes to a different entry.
* PropCount.v: `C01_round_preserving_sum`, `C01_round_preserving_row_totals`

### C02 - Calibrated confident joint has the label counts as row sums (proved)

Algebra of row scaling over Q, then C01 per row.
* PropCount.v: `C02_calibrated_counts`
* Remarks: row sums of the confident joint at least 1e-100 (TINY_VALUE) for the classes that occur; other rows may be zero

### C03 - Estimated joint is a probability distribution with the observed label marginal (proved)

From C02: the calibrated matrix divided by its total.
* PropCount.v: `C03_joint_is_distribution`

### C04 - Confident joint counts each example by the documented rule (proved)

Refinement of the vectorised code to a per-example rule, by induction on the examples.
* PropCount.v: `C04_confident_joint_rule`, `C04_counted_class_is_confident_refuted`, `C04_documented_loop_refuted`
* Remarks: the two _refuted theorems record deviations from the docstring

### C05 - Confident thresholds are the class-wise mean self-confidence (proved)

Mean of a selected sub-list; the 2e-6 floor and the value for absent classes explicit.
* PropCount.v: `C05_thresholds`

### C06 - num_label_issues agrees with the confident_learning filter (proved)

Off-diagonal mass of the confident joint counted per example and compared with the filter's mask.
* PropFilter.v: `C06_count_agrees_with_filter`

### C07 - An example whose given label is (one of) the model's top predictions is never flagged (proved)

Case analysis over the filters; the final pass of find_label_issues clears agreeing examples.
* PropFilter.v: `C07_top_prediction_never_flagged`, `C07_predicted_neq_given`
* Remarks: a deficit of exactly 1e-6 against a class of smaller index counts as beaten

### C08 - filter_by='both' is the intersection of the two pruning methods (proved)

Extensionality of masks.
* PropFilter.v: `C08_both_is_intersection`

### C09 - Ranked output and mask output describe the same set (proved)

The ranked output is a permutation of the flagged indices sorted by score, for every sort.
* PropFilter.v: `C09_ranked_output`

### C10 - Parallelism does not change results (proved)

Pool model: invariant over all schedules of workers, every chunk result stored at its own position.
* PropFilter.v: `C10_parallelism`

### C11 - prune_by_class flags exactly the lowest self-confidence examples of each class (proved)

Selection of the n smallest for every argsort: flagged examples are below unflagged ones, exact counts.
* PropFilter.v: `C11_prune_by_class`
* Remarks: classes with a single example are never pruned (explicit in the theorem)

### C12 - prune_by_noise_rate flags the examples with the largest margins for each pair of classes (proved)

As C11 per pair of classes, on margins.
* PropFilter.v: `C12_prune_by_noise_rate`

### C13 - min_examples_per_class keeps enough examples (partial)

Counting argument per class; counterexample for prune_by_noise_rate by computation.
* PropFilter.v: `C13_min_examples_partial`, `C13_min_examples_noise_rate_refuted`
* Remarks: true for prune_by_class and both (frac_noise at most 1, no num_to_remove_per_class); false for prune_by_noise_rate, counterexample proved

### C14 - low_self_confidence / low_normalized_margin flag exactly the estimated number of lowest-scoring examples (proved)

Selection lemma on the total count.
* PropFilter.v: `C14_low_score_filters`

### C15 - Label quality scores lie in [0,1] and are per-example (proved)

Bounds and locality, per scoring method.
* PropRank.v: `C15_scores`, `C15_scores_are_per_example`, `C15_adjusted_scores`
* Remarks: adjusted scores: rows assumed to sum to one

### C16 - Ensemble label quality scores are weighted averages (proved)

Weighted averages; weights for the modes uniform, accuracy and custom (log_loss_search is C99).
* PropRank.v: `C16_ensemble_is_average`, `C16_identical_models`, `C16_ensemble_succeeds`
* PropMore.v: `C16_custom_weights`
* PropEnsemble.v: `C16_formula`

### C17 - find_top_issues returns the lowest-scoring examples (proved)

Selection lemma.
* PropRank.v: `C17_find_top_issues`

### C18 - Latent estimates are probability objects (partial)

Stochastic-matrix invariants through clipping and renormalisation; convergence loop by induction on iterations.
* PropLatent.v: `C18_latent_estimates`, `C18_converged_estimates_partial`, `C18_converged_missing_class_refuted`
* Remarks: without convergence iterations: proved for every confident joint with row and column sums at least 1e-100; with them: proved when every class occurs in the labels (at most 10^6 classes, 10^12 labels) and false when a class is missing, proved for every such input

### C19 - Latent algebra is Bayes-consistent (proved)

Bayes algebra over Q.
* PropLatent.v: `C19_bayes`
* PropTight3.v: `C19_passed_noise`
* Remarks: the matrix returned by np.linalg.inv is an argument required to be a left inverse

### C20 - Making a class noise-free keeps a valid noise matrix (proved)

Column algebra.
* PropLatent.v: `C20_noise_free_class`

### C21 - Batched thresholds do not depend on the batching (proved)

State machine over batches; invariant: accumulated sums equal the sums over the processed prefix.
* PropBatched.v: `C21_thresholds`, `C21_issues_independent_of_batching`, `C21_batch_size`
* Remarks: Any split for the thresholds, any split and execution for the scores; C21_batch_size: find_label_issues_batched gives one mask for every batch size. C21_floor_refuted shows the lower bound on the batch means is needed.

### C22 - Batched issue counting is schedule independent (partial)

Pool schedules; refutation by a lost-update argument for repeated labels in one chunk.
* PropBatched.v: `C22_parallel_count`, `C22_calibrated_partial`, `C22_calibrated_refuted`
* Remarks: Default counting: proved for every schedule. Calibrated counting: proved for batches below 10000 examples, refuted at 10000 (fancy-index += loses repeated labels of a chunk).

### C23 - Multi-label format conversion round trip (proved)

Round-trip laws by induction.
* PropLabels.v: `C23_lists_round_trip`, `C23_matrix_round_trip`

### C24 - Label formatting is a bijection onto 0..K-1 (proved)

Sorted distinct labels give a bijection.
* PropLabels.v: `C24_format_labels`, `C24_format_multilabels`
* Remarks: label columns that are ClassLabel features are not remapped by the code and not covered

### C25 - Random noise-matrix helper respects its constraints (proved)

Loop invariants for arbitrary random streams, termination measure.
* PropNoise.v: `C25_probabilities`, `C25_balls`
* PropTrace.v: `C25_rejects`
* Remarks: termination included; fewer than 500000 balls

### C26 - Synthetic noisy labels follow the noise matrix counts and keep alignment (proved)

Counting of flipped labels per class for arbitrary random choices.
* PropNoise.v: `C26_noisy_label_counts`

### C27 - Data Shapley scores lie in [0,1] and satisfy the KNN-Shapley recursion (proved)

Downward induction on the recursion, closed form.
* PropNoise.v: `C27_scores_in_range`, `C27_closed_form`

### C28 - Outlier scores from distances lie in [0,1] and are order reversing (proved)

Monotonicity of exp over R.
* PropOutlier.v: `C28_distances_to_scores` [A1], `C28_corrected_scores` [A1], `C28_estimator_features` [A1], `C28_estimator_pred_probs` [A1]
* PropTight.v: `C28_minkowski_two` [A1], `C28_gen_no_classes` [A1]
* Remarks: exact reals (no underflow of exp); nearest-neighbour search is an argument

### C29 - The OOD estimator enforces fit-before-score over every call history (proved)

State machine of the estimator, invariant over all call histories.
* PropOutlier.v: `C29_never_replaced` [A1], `C29_score_features` [A1], `C29_score_pred_probs` [A1], `C29_fit_score_when_fitted` [A1]

### C30 - Token-level issues map back to the right (sentence, token) positions (proved)

Bijection between flat positions and (sentence, token) pairs.
* PropToken.v: `C30_positions`, `C30_position_content`, `C30_find_label_issues`, `C30_low_memory`, `C30_scores`
* Remarks: sentence scores need non-empty sentences (numpy raises on an empty one)

### C31 - Token issues_from_scores returns exactly the low-scoring items in order (partial)

Sorted prefix; the IndexError proved for all inputs below the threshold.
* PropToken.v: `C31_tokens`, `C31_sentences_partial`, `C31_all_below_refuted`
* PropTight3.v: `C31_empty_sentence`
* Remarks: sentence variant raises IndexError when every score is below the threshold (or there is no sentence), proved for all such inputs; everything else proved

### C32 - Segmentation pixel indices round trip and batching invariance (proved)

Div/mod arithmetic of ravelled indices; batches as C21.
* PropSegmentation.v: `C32_flagged_pixels`, `C32_pixel_content`, `C32_downsampling`, `C32_ranked_pixels`, `C32_batch_size`
* Remarks: batch-size independence needs every (downsampled) given label to have predicted probability at least 2e-6 and a class count of at least 2; exact numbers

### C33 - Segmentation issues_from_scores returns exactly the low-scoring images (partial)

Sorted prefix with the off-by-one of ranking[:cutoff+1].
* PropSegmentation.v: `C33_pixels`, `C33_images_partial`, `C33_images_refuted`, `C33_range`
* Remarks: false as documented: whenever some image scores at or above the threshold, exactly one such image (the lowest) is returned too, because of ranking[:cutoff + 1]; proved for all inputs

### C34 - Exponential moving average aggregator is a monotone average (proved)

Convexity and sortedness; independence of the sort via the multiset.
* PropMultilabel.v: `C34_ema_average`, `C34_ema_order_independent`, `C34_ema_monotone`, `C34_ema_rejects`
* Remarks: order independence and monotonicity hold across different (unstable) sorting routines too

### C35 - Majority vote returns a most frequent label (proved)

Per-example refinement of the tie-breaking rules.
* PropMultiannotator.v: `C35_majority_vote`, `C35_total`, `C35_random_choice`, `C35_all_tied_raises`
* Remarks: the vote raises ValueError when a tie survives and no example has a clear winner (C35_all_tied_raises)

### C36 - CROWDLAB posterior is a probability distribution (proved)

Convex combinations of distributions.
* PropMultiannotator.v: `C36_consensus`, `C36_ensemble`, `C36_total`, `C36_total_ensemble`
* Remarks: np.sqrt is an arbitrary function positive on positive numbers

### C37 - Active learning scores lie between 1/K and the consensus quality and favour labelling (proved)

Convexity.
* PropMultiannotator.v: `C37_active_learning`
* Remarks: predicted probabilities after temperature scaling

### C38 - IoU is a similarity (proved)

Interval arithmetic on boxes.
* PropDetection.v: `C38_iou_range`, `C38_iou_symmetric`, `C38_iou_self`, `C38_iou_self_one`, `C38_iou_positive`, `C38_iou_zero`, `C38_iou_contained`, `C38_iou_translation`
* Remarks: Boxes with rational coordinates; overlap means a common interior point.

### C39 - Detection matching is one-to-one (proved)

Invariant of the greedy matching.
* PropDetection.v: `C39_matching`, `C39_order_of_ties`, `C39_perfect_image`, `C39_average_precision`
* Remarks: For every argsort, so for every order of tied confidences. Average precision without the float32 rounding.

### C40 - Exact-duplicate correction of the neighbour graph (proved)

List surgery on rows of the graph, for every order of the duplicate sets.
* PropKnn.v: `C40_shape`, `C40_unchanged`, `C40_duplicates`
* Remarks: For every argsort and every order of visiting the duplicate sets.

### C41 - Near-duplicate sets are symmetric and consistent with the flags (proved)

Relation between the symmetrised sets and the flags.
* PropKnn.v: `C41_near_duplicate_sets` [A2], `C41_never_raises` [A2], `C41_exact_duplicates_flagged` [A1], `C41_zero_threshold` [A2], `C41_scores` [A1]
* Remarks: A threshold of zero flags nothing because the comparison is strict.

### C42 - Class imbalance flags only the rarest class (proved)

Counting.
* PropChecks.v: `C42_all_classes_present`, `C42_rarest`, `C42_absent_class`

### C43 - The underperforming group reported is the worst cluster (partial)

Fold over clusters; counterexample by computation.
* PropChecks.v: `C43_reported_partial`, `C43_separated_partial`, `C43_worst_cluster_refuted`
* Remarks: False in general: the code compares a cluster's confidence with the ratio of the current worst cluster, so a later cluster can replace the worst one and the outcome depends on the visiting order. Proved: what is reported is a kept cluster below the threshold, and the worst cluster is found when it is well separated.

### C44 - Datalab's tables stay consistent over every history of checks (proved)

Histories of checks as lists of operations on the tables; invariants by induction.
* PropDatalab.v: `C44_latest`, `C44_one_row`, `C44_failures`, `C44_health`, `C44_statistics`, `C44_malformed_check_refuted`
* Remarks: For a custom check whose table lacks its flag column the last theorem shows that recording it fails half-way and removes its previous summary row.

### C45 - find_issues does not modify the caller's issue_types argument (partial)

Dictionaries with shared nested dictionaries (heap of dictionaries).
* PropDatalab.v: `C45_unchanged_partial`, `C45_entries_kept_partial`, `C45_modified_refuted`
* Remarks: False: inputs of a call are written into the caller's nested dictionaries and win over the inputs of later calls. Proved: existing entries are kept and nothing changes when the dictionaries already contain the inputs.

### C46 - Saving and loading a Datalab (partial)

File system with crash points.
* PropDatalab.v: `C46_no_overwrite`, `C46_roundtrip`, `C46_crash_partial`, `C46_forced_crash_refuted`, `C46_unlabelled_reload_refuted`
* Remarks: The crash clause is false: the object file is emptied before it is rewritten.

### C47 - Cross-validated predictions are out-of-sample and complete (proved)

Partition arguments over arbitrary folds, arbitrary classifiers.
* PropCV.v: `C47_classification`, `C47_classification_plain`, `C47_regression`, `C47_regression_rejects`
* PropMore.v: `C47_joint`
* PropTight.v: `C47_mismatch`
* Remarks: Any partition into folds, any classifier/regressor that returns one row per input. The rare-class example that is lent to training gets a certainty row for its own label, which the theorem states.

### C48 - CleanLearning trains on exactly the unflagged data with aligned weights (proved)

State machine of CleanLearning, alignment of subsets.
* PropLearn.v: `C48_training`, `C48_training_list`, `C48_rejects`, `C48_integer_flags_refuted`, `C48_list_weights_refuted`, `C48_passed_noise_refuted`
* PropTight.v: `C48_integer_flags_general`, `C48_integer_weights_refuted`
* PropTight3.v: `C48_integer_flags_list`
* Remarks: For every history of the object. Boundaries proved as refutations: an integer is_label_issue column trains on copies of the last two examples; labels in a Python list silently get all-one estimated weights; a noise matrix passed together with label_issues is ignored (stale noise rates of an earlier dataset are used).

### C49 - CleanLearning results do not depend on earlier datasets (partial)

Independent description of the search compared with the state machine over two calls.
* PropLearn.v: `C49_low_memory_partial`, `C49_filters_partial`, `C49_repeat`, `C49_first_call`, `C49_later_calls`, `C49_other_dataset_refuted`, `C49_passed_noise_refuted`, `C49_save_space_refuted`
* PropTight.v: `C49_two_labels`
* Remarks: True in low-memory mode and for the filters that do not prune by the joint (when both calls return); false for the default filter, where the confident joint of the first dataset is used for every later one: proved as C49_later_calls and by a concrete refutation. What is missing for the rest: nothing, the property is false there. pulearning excluded in C49_repeat, C49_first_call and C49_later_calls.

### C50 - Class-level dataset summaries are consistent with the joint (proved)

Sums over matrices.
* PropDataset.v: `C50_classes`, `C50_tiny_class_refuted`, `C50_overlap`, `C50_score_from_joint`, `C50_score_complement`, `C50_score_from_data`, `C50_summary`, `C50_summary_score_refuted`, `C50_joint_only_refuted`, `C50_confident_joint_only_refuted`
* PropMore.v: `C50_overlap_counts`
* Remarks: The refutations record limits outside the statement: classes of probability below 1e-6, and health_summary not passing its joint to the overall score.

### C51 - Null-value and identifier-column checks (proved)

Counting over table rows.
* PropChecks.v: `C51_null`, `C51_most_common_pattern`, `C51_no_null`, `C51_column_impact`, `C51_sequential`, `C51_identifier_columns`

### C52 - Regression label issues are the requested number of lowest-quality examples (proved)

Search over fractions with an arbitrary regressor; selection lemma.
* PropRegression.v: `C52_issues`, `C52_completes`, `C52_search`, `C52_exact_example_refuted`, `C52_model_kwargs_refuted`
* Remarks: Any regressor, any KFold split, any sort, exact arithmetic; sqrt and exp are arbitrary functions. Refuted extras: ties are decided for the fine candidate so exactly predicted examples can be flagged; the search ignores the caller's model_kwargs. C52_bad_model_raises: infeasible candidates scored -1e30 can win.

### C53 - Object-detection image issues: ranking and mask agree and scores lie in [0,1] (proved)

Selection lemma; softmin bounds over R.
* PropDetection.v: `C53_mask`, `C53_ranked` [A1], `C53_scores` [A1], `C53_weights` [A1]
* PropTight2.v: `C53_unknown_class`, `C53_formula` [A1]
* Remarks: The Euclidean similarity is any function into [0,1]; in exact arithmetic an image score may exceed 1 by about 1e-100 and the ranking theorem assumes at most 1e99 boxes per image.

### C54 - Merging token classes and filtering sentences (proved)

Sums over groups of columns; string filter by induction.
* PropToken.v: `C54_merge_probs`, `C54_filter_sentence`
* PropTight3.v: `C54_map_too_short`
* Remarks: rows whose kept mass is zero are excluded (numpy divides by zero)

### C55 - num_to_remove_per_class removes that many examples from each class (partial)

As C11; counterexample for prune_by_noise_rate.
* PropFilter.v: `C55_num_to_remove_by_class_partial`, `C55_num_to_remove_noise_rate_refuted`
* Remarks: true for prune_by_class; false for prune_by_noise_rate, counterexample proved

### C56 - confidence_weighted_entropy scores lie in [0,1] and rank certain labels above undecided ones (partial)

Entropy bounds over R.
* PropRank.v: `C56_entropy_scores_range_partial` [A1], `C56_certain_correct_label_scores_best_refuted` [A1]
* Remarks: range proved; the ordering claim is false at probability 1 (score 0), counterexample proved

### C57 - True-label probabilities computed from noise matrices are distributions (proved)

Row sums after Bayes inversion.
* PropLatent.v: `C57_pyx_rows`

### C58 - Scores from a precomputed neighbour index do not depend on earlier batches (partial)

Histories of the estimator; counterexample.
* PropOutlier.v: `C58_later_scores_partial` [A1], `C58_score_independent_of_history_refuted` [A1]
* Remarks: false for the first batch: the scaling factor is taken from the first batch scored, counterexample proved; true for every later score call

### C59 - Token summaries count exactly the issues (proved)

Counting.
* PropToken.v: `C59_common_tokens`, `C59_common_swaps`, `C59_filter_by_token`
* PropTight.v: `C59_out_of_range`
* Remarks: printing and class-name substitution not modelled

### C60 - Softmin sentence score lies between the minimum and the mean (proved)

Softmin as a convex combination.
* PropToken.v: `C60_softmin` [A1]
* Remarks: exact reals

### C61 - Segmentation quality scores mean what is documented (proved)

Div/mod and softmin.
* PropSegmentation.v: `C61_pixel_scores`, `C61_num_pixel_issues`, `C61_softmin` [A1]
* Remarks: softmin over exact reals

### C62 - Segmentation summaries count and filter exactly the flagged pixels (proved)

Counting.
* PropSegmentation.v: `C62_common_label_issues`, `C62_filter_by_class`
* Remarks: class-name substitution and printing not modelled; exclude only looks at the predicted class

### C63 - Multi-label issues are the union of the one-vs-rest issues (partial)

One-vs-rest union; counterexamples by computation.
* PropMultilabel.v: `C63_mask`, `C63_predicted_neq_given`, `C63_confident_learning`, `C63_ranked`, `C63_low_filters`, `C63_universal_class_raises`, `C63_low_ranking_refuted`
* PropTight.v: `C63_low_memory`
* Remarks: the ranked output of the low-score filters is refuted: indices in score order are permuted by an argsort of scores in index order; a class on every example makes issue finding raise

### C64 - Multi-label quality scores (proved)

Per class reduction to C15.
* PropMultilabel.v: `C64_class_scores`, `C64_overall_scores`, `C64_degenerate_raises`

### C65 - Multi-label dataset summaries are consistent with the issues found (proved)

Counting.
* PropMultilabel.v: `C65_common_issues`, `C65_class_ranking`, `C65_health_score`
* Remarks: int(probability * num_examples) is exact over Q, in floats it may truncate to one less

### C66 - Multi-label confident joint and removal counts are per class (partial)

One-vs-rest reduction; counterexample.
* PropMultilabel.v: `C66_multilabel_confident_joint`, `C66_num_to_remove_refuted`
* Remarks: the confident-joint part is proved; the num_to_remove_per_class part is refuted: with prune_by_class the examples without the class are removed

### C67 - One more vote for a class never lowers its posterior (partial)

Monotonicity of the posterior in one vote; counterexample by computation.
* PropMultiannotator.v: `C67_votes_support_partial`, `C67_best_quality_refuted`
* Remarks: proved for consensus_method majority_vote; false for the default best_quality, where the consensus likelihood can fall below the non-consensus likelihood

### C68 - Annotator statistics describe the annotator (proved)

Counting and means per annotator.
* PropMultiannotator.v: `C68_annotator_stats`

### C69 - Multi-annotator results do not depend on the order of the annotators (proved)

Permutation invariance.
* PropMultiannotator.v: `C69_majority_vote_order`, `C69_annotator_order`, `C69_annotator_order_ensemble`

### C70 - best_quality consensus is the most probable class (proved)

Argmax with tie rule.
* PropMultiannotator.v: `C70_best_quality`, `C70_tie_refuted`
* Remarks: C70_tie_refuted: with a tied maximum the majority vote is kept even when its posterior is far below the maximum

### C71 - Average per-class detection counts (partial)

Sums over thresholds; counterexample.
* PropDetection.v: `C71_counts_partial`, `C71_average_refuted`
* Remarks: The counts are divided by the number of thresholds times the number of classes (summary.py:587), so they are the averages only for one class; the sums are proved up to that factor.

### C72 - Per-class detection metrics (proved)

Ratios of counts.
* PropDetection.v: `C72_metrics`

### C73 - Meaning of the box scores (proved)

Case analysis of box scores.
* PropDetection.v: `C73_overlooked`, `C73_bad_location`, `C73_swap`

### C74 - Duplicate correction keeps the nearest other neighbours in order (partial)

Stable versus arbitrary sort.
* PropKnn.v: `C74_order_partial`, `C74_order_refuted`
* Remarks: Holds for a stable sort only; np.argsort is called with its default, which is not stable for rows longer than 16.

### C75 - Which neighbour graph a Datalab check uses (partial)

Decision table; counterexample.
* PropKnn.v: `C75_created`, `C75_default_metric`, `C75_too_many_neighbors`, `C75_graph_used_partial`, `C75_other_features_refuted`
* Remarks: The last clause is false: a stored graph is reused although other features are passed.

### C76 - Data valuation scores count agreements among nearest neighbours (proved)

Counting over neighbours.
* PropChecks.v: `C76_value`, `C76_range`, `C76_sign`, `C76_check`

### C77 - Label check from features uses leave-one-out votes (partial)

Leave-one-out algebra; counterexample.
* PropChecks.v: `C77_leave_one_out_partial`, `C77_negative_probability_refuted`
* Remarks: Holds for examples found among their own k+1 nearest neighbours; an example that is not (many exact duplicates) can get a negative probability.

### C78 - get_issues(name) returns the columns of that check and no others (partial)

String containment; counterexample.
* PropDatalab.v: `C78_builtin_partial`, `C78_substring_refuted`
* Remarks: True for the built-in names; columns are selected by substring, so a custom check named label_length shows up in get_issues('label').

### C79 - Which checks Datalab runs and with which arguments (proved)

Decision table of IssueFinder.
* PropDatalab.v: `C79_default`, `C79_explicit`, `C79_underperforming`, `C79_outlier_without_labels_refuted`
* Remarks: The last theorem records that the rule in the code dropping the outlier check without labels never applies.

### C80 - Spurious-correlation scores compare with the most frequent class (partial)

Algebra; counterexamples.
* PropDatalab.v: `C80_scores_partial`, `C80_baseline_value`, `C80_baseline_refuted`, `C80_renaming_refuted`
* Remarks: The baseline is the class identifier of the most frequent class over n instead of its frequency.

### C81 - Image checks keep Datalab's tables consistent (partial)

Table histories; counterexamples.
* PropDatalab.v: `C81_rows_partial`, `C81_duplicate_rows_refuted`, `C81_stale_column_refuted`, `C81_health_refuted`
* PropMore.v: `C81_columns_partial`
* Remarks: Partial: one row per check when the Imagelab lists only the requested checks.

### C82 - The non-IID p-value compares the dataset with reordered copies of itself (proved)

Integer area statistic; permutations of the index set.
* PropNoniid.v: `C82_statistic`, `C82_permutations` [A2]
* Remarks: The kernel density estimate is an arbitrary function of the statistics; the graph is given as its neighbour table.

### C83 - The non-IID check flags at most one example, the one with the lowest score (proved)

First minimum.
* PropNoniid.v: `C83_flags` [A1], `C83_scores` [A2]
* Remarks: Reals for tanh; area statistic in exact rationals.

### C84 - The non-IID check does not depend on the direction in which the data is read (partial)

Reflection of indices.
* PropNoniid.v: `C84_statistic`, `C84_scores_partial` [A2], `C84_direction_refuted` [A1]
* Remarks: The statistic is symmetric and so is each example's unnormalised area; the normaliser max(i, N - i) (the docstring says max(i, N - 1 - i)) is not, so in a palindromic dataset the last example is flagged and never the first.

### C85 - Datalab's distance-based outlier flags follow the interquartile rule and agree with the scores (proved)

Quantile by interpolation for every sort; monotone transformation.
* PropOutlierCheck.v: `C85_flags` [A1], `C85_quantile_unique`, `C85_ordering` [A1], `C85_few` [A1], `C85_threshold` [A1], `C85_unit` [A1], `C85_order` [A1], `C85_outcome` [A1], `C85_no_other_failure` [A1]
* Remarks: Exact rationals for distances and quantiles, reals for exp in the scores. Includes that metric='minkowski' always fails because the exponent p is not passed on.

### C86 - Datalab's outlier flags from predicted probabilities are relative to the median score (proved)

Median and ratio.
* PropOutlierCheck.v: `C86_flags` [A3], `C86_monotone` [A3], `C86_path` [A1]
* Remarks: Scores are the reals returned by OutOfDistribution.fit_score (C28); any sorting routine for the median.

### C87 - Regression residual scores and input checks (proved)

Input validation table; exp over R.
* PropRegRank.v: `C87_outcome` [A1], `C87_residual` [A1], `C87_own` [A1]
* Remarks: ModelRegRank.v. Real numbers in place of floats; infinite entries not modelled.

### C88 - Regression outre scores: range and invariances (proved)

Isometries of the plane applied to nearest neighbours.
* PropRegRank.v: `C88_range` [A1], `C88_bias` [A1], `C88_shift` [A1], `C88_mirror` [A1], `C88_order` [A1], `C88_exact_refuted` [A1]
* Remarks: ModelRegRank.v on top of ModelOutlier.v; exact nearest neighbours in the plane. C88_exact_refuted: labels 0,0,0,0 and predictions 1,1,1,0: the exact prediction gets the lowest score and the wrong ones score 1.

### C89 - Datalab's regression label flags (proved)

Composition with C86/C87.
* PropRegRank.v: `C89_flags` [A1], `C89_residual` [A1], `C89_input` [A1]
* Remarks: ModelRegRank.v. The features path is ModelRegression (C52). C89_example_units: the residual method depends on the unit of the label.

### C90 - Out-of-sample probabilities from features in Datalab's label check (proved)

Counting of votes.
* PropLabelCheck.v: `C90_votes`, `C90_distribution`, `C90_own_label`, `C90_outcome`, `C90_run`, `C90_copies_fail`, `C90_given`
* Remarks: ModelLabelCheck.v. C90_example_copies: three copies with k=1 and two classes make the label check raise ValueError.

### C91 - The joint-based methods of num_label_issues (proved)

Algebra of the calibrated joint, rounding bounds.
* PropIssueCount.v: `C91_calibrated`, `C91_custom`, `C91_custom_near`, `C91_calibrated_near`, `C91_choice`
* Remarks: ModelIssueCount.v.

### C92 - frac_noise returns a nested fraction of the issues (partial)

Monotonicity of truncated counts; counterexample.
* PropFrac.v: `C92_nested`, `C92_count_partial`, `C92_zero`, `C92_zero_by_class_refuted`, `C92_ignored`
* Remarks: Partial: the exact count is proved for prune_by_class in classes whose calibrated diagonal reaches min_examples_per_class; with a smaller diagonal prune_by_class can flag an example even with frac_noise=0 (C92_zero_by_class_refuted).

### C93 - A noise matrix counts as valid exactly when every label is informative (proved)

Algebra of the joint.
* PropTrace.v: `C93_valid_iff`, `C93_trace`, `C93_two_classes`, `C93_uninformative`, `C93_perfect`
* Remarks: exact rational arithmetic

### C94 - generate_noise_matrix_from_trace delivers what was requested (proved)

Fuelled rejection sampling over arbitrary random draws; invariants per column.
* PropTrace.v: `C94_matrix`, `C94_two`, `C94_rejects`
* Remarks: fuel bounds the loop iterations and is shown sufficient; fewer than 500000 noise rates. C94_two_range_refuted and C94_two_bounds_refuted record that the two-class branch ignores the bounds and does not check the trace

### C95 - The batched search flags the lowest-scored examples, never one whose label is the predicted class (proved)

C21 state machine combined with the selection lemma.
* PropBatchFlags.v: `C95_flags`, `C95_never_flags_agreement`, `C95_rejects_mismatch`
* Remarks: C95_flags for the default num_issue_kwargs; the other two for all settings

### C96 - With quality_method="agreement" the consensus is the most common label and its quality the share of annotators who gave it (partial)

Label counts for both label types; positions of the counts among the labels used.
* PropAgreement.v: `C96_quality`, `C96_distributions`, `C96_majority_vote`, `C96_best_quality_integers`, `C96_best_quality_floats_partial`, `C96_best_quality_refuted`
* Remarks: The quality and consensus_method='majority_vote' parts hold. With the default best_quality the statement is true for integer labels, and for float labels (every DataFrame, every table with missing entries) only when no smaller label is missing from an example's labels; otherwise false: counts of float labels are written to the first positions, so a unanimous label 2 is reported as class 0 with quality 0.

### C97 - Temperature scaling returns a distribution, keeps the order of the classes and moves confidence monotonically (proved)

Softmax algebra over R: a scaled probability is the reciprocal of a sum of exponentials.
* PropTemperature.v: `C97_distribution` [A1], `C97_order` [A1], `C97_identity` [A1], `C97_confidence` [A1], `C97_sharpen_smooth` [A1], `C97_rows` [A1]
* Remarks: Real arithmetic (exp, ln). Identity and sharpening for entries of at least 1e-30, which the code clips to.

### C98 - Calibration picks the searched temperature of least cross entropy against the annotators (partial)

First-minimum search over two grids; closed forms of the cost in the two counterexamples.
* PropTemperature.v: `C98_best_partial` [A1], `C98_default_partial` [A1], `C98_last_refuted` [A1], `C98_floats_refuted` [A1]
* Remarks: True for correctly counted labels unless the largest coarse temperature is the best (the fine grid excludes it); float labels with gaps are counted as other classes, so the calibration can flatten perfect predictions.

### C99 - Ensemble scores weighted by log loss (proved)

Real arithmetic: positivity and normalisation of exp(-t*loss), first minimum of the searched values, convexity.
* PropLogLoss.v: `C99_scores` [A1], `C99_missing_class` [A1], `C99_nothing_to_search` [A1]
* Remarks: Real arithmetic (exp, ln); eps is the clipping constant of sklearn's log_loss, arbitrary

### C100 - Co-teaching trains each network on what the other finds easy (partial)

The first n entries of any sorting permutation are n lowest; the returned value computed from the weighted mean.
* PropCoteaching.v: `C100_exchange_partial`, `C100_nothing_remembered`, `C100_average_refuted`
* Remarks: The examples exchanged are as stated; the value returned is the average divided once more by the number of examples, so the loss of a batch shrinks with its size.

### C101 - Co-teaching schedules (partial)

Closed form of the linspace and of the decay, monotonicity in Q.
* PropCoteaching.v: `C101_schedule_partial`, `C101_schedule_rejects`, `C101_schedule_refuted`, `C101_learning_rate`
* Remarks: forget_rate ** exponent is an arbitrary value 'powered'. The schedule is as stated when powered <= forget_rate (exponent >= 1); for exponents below one it overshoots and drops.

### C102 - Co-teaching accuracy and batches (proved)

Induction over the batches; only the last one is affected by the size test.
* PropCoteaching.v: `C102_evaluate`, `C102_batches`, `C102_train_accuracy`, `C102_small_training_set`

### C103 - Label issue search always succeeds on valid data (proved)

Every step of the model shown to return Ok under the data set hypotheses; the single-class case by computing the calibrated joint.
* PropValid.v: `C103_returns`, `C103_one_class`, `C103_one_other_class`
* Remarks: n_jobs = 1 (C10 covers the process pool), num_to_remove_per_class not passed (C11)

### C104 - Which inputs are accepted (proved)

Case analysis of the check; zunique characterised as the sorted list of the distinct values.
* PropValid.v: `C104_labels`, `C104_label_errors`, `C104_predictions`, `C104_features`, `C104_multilabel`, `C104_same_check`
* Remarks: One-dimensional labels; C104_same_check links it to the check used in the other models

### C105 - Span classification (proved)

Reduction to C30, C103 and the 1e-6 rule of C07 for two-column rows.
* PropSpan.v: `C105_scores`, `C105_issues`
* PropTight.v: `C105_defaults`
* Remarks: Default keyword arguments

### C106 - Displayed token issues (partial)

Invariant of the display loop (number already shown), for any notion of most likely class.
* PropSpan.v: `C106_shown_partial`, `C106_top_refuted`, `C106_nothing_to_show`, `C106_sentences`, `C106_span_refuted`
* Remarks: As stated for top >= 1 and token classification. top <= 0 prints everything, an empty list of issues raises IndexError, and the display for spans always prints class 0 as the prediction.

### C107 - Object detection data summaries (partial)

Dictionaries as association lists; invariant of the update loop (fold over all boxes), stable insertion sort.
* PropDetSummary.v: `C107_counts`, `C107_sorted_counts`, `C107_sizes`, `C107_distribution_partial`, `C107_sums_to_one_refuted`
* Remarks: Everything as stated except that the shares add up to one: they are rounded to two decimals, with 201 equally frequent classes all are 0.0.

### C108 - Multi-annotator label formats (proved)

np.unique characterised as the increasing list of distinct values (C24); pivot as lookup in the long table.
* PropWide.v: `C108_convert`, `C108_format_integers`, `C108_format_strings`, `C108_unformatted`
* Remarks: C108_unformatted: a class called nan and fractional labels are left unchanged

### C109 - Which multi-annotator labels are accepted (proved)

Case analysis of the check, both directions.
* PropWide.v: `C109_accepted`
* Remarks: Labels are class numbers (type and string checks: C104)

### C110 - Stored info is shown with the user's labels and cannot be damaged (partial)

A heap of dictionaries with locations: the returned location is fresh, so writes to it do not reach the stored ones; label map inversion from C24.
* PropReport.v: `C110_private`, `C110_errors`, `C110_unnamed_refuted`, `C110_names`, `C110_multilabel_names`, `C110_label_table`
* Remarks: As stated for get_info with a name (writes of whole entries; nested values are shared). get_info() without a name returns the live dictionary, so a caller's edits change the Datalab.

### C111 - What the Datalab report contains (proved)

Over the audit state of C44/C45 (latest run of every check); any sorting by number of issues.
* PropReport.v: `C111_contents`, `C111_no_issues`
* Remarks: The image checks have no section of their own (they are reported by the image adapter, not modelled)

### C112 - Verbosity of the report (partial)

Case analysis of the printing of values by fuel; the kinds of the stored values of the built-in checks are read off their collect_info.
* PropReport.v: `C112_info_shown`, `C112_builtin_printed`, `C112_printed_values`, `C112_builtin_partial`, `C112_underperforming_refuted`, `C112_too_verbose_refuted`
* PropTight.v: `C112_tables`
* Remarks: The report succeeds for the built-in checks at the levels 0 to 2, and at level 3 if only checks with four levels (label, outlier, data valuation) were run. Level 3 raises TypeError with an underperforming group, level 4 ValueError with any check of three levels, and printing an empty list or a list of lists of different lengths never ends (RecursionError).

### C113 - Registering custom checks (proved)

Induction on the sequence of registrations.
* PropReport.v: `C113_registry`, `C113_rejected`, `C113_unknown`

### C114 - The order of the examples does not matter (proved)

The thresholds and counts are sums over permuted lists; the pruned examples are the unique lowest ones when there are no ties.
* PropSymmetry.v: `C114_order`, `C114_counts`, `C114_tied_refuted`
* Remarks: With ties the pruning filters depend on the order (C114_tied_refuted). n_jobs = 1; C12 shows that the result does not depend on n_jobs.

### C115 - The numbering of the classes does not matter (proved)

Every ingredient (averages, thresholds, confident class, 1e-6 rule) is carried along the bijection of the classes.
* PropSymmetry.v: `C115_names`, `C115_scores`, `C115_pruning_refuted`, `C115_exact_gap_refuted`
* Remarks: prune_by_class depends on the numbering even without ties, because the rounding of the counts breaks its ties by position.

### C116 - Repeating the data set repeats the result (proved)

As C114, with the order given by c copies of 0..n-1; averages of repeated lists are unchanged.
* PropSymmetry.v: `C116_copies`, `C116_pruning_refuted`

### C117 - Regression CleanLearning trains on exactly the unflagged examples and carries nothing over (proved)

The method is split into checks, search and the final part; each theorem follows from the final part's result not reading the object except to keep k and the run counter.
* PropRegLearn.v: `C117_training`, `C117_completes`, `C117_rejects`, `C117_two_steps`, `C117_supplied`, `C117_no_memory`, `C117_stored`, `C117_column_refuted`, `C117_list_features_refuted`, `C117_integer_flags_refuted`
* PropTight.v: `C117_integer_flags_general`, `C117_nan_given`
* Remarks: Targets that are not numbers and flags stored as integers with pandas targets are not modelled.

### C118 - Sentences show every token, colour codes surround copies of the word and nothing else changes, token replacements are simultaneous (proved)

One lemma about left-to-right replacement gives the pieces between replaced copies; everything about colouring and sentences follows from it.
* PropText.v: `C118_sentence`, `C118_words`, `C118_colour`, `C118_colour_words`, `C118_shown`, `C118_process`, `C118_process_unique`, `C118_process_chars`, `C118_full_stop_refuted`, `C118_backslash_refuted`, `C118_no_rules_refuted`
* Remarks: The regular expressions are modelled by their meaning for escaped literals and word boundaries; the empty word, empty keys and group references in the replacement are not modelled.

### C119 - An image audit runs exactly the checks asked for and survives failing image checks (proved)

The call is modelled with the state it leaves even when it raises. The requests are described by relations on the issue_types dictionary (`plain_part`, `asks_images`, `asks_spurious`); the proofs show the model computes exactly what those relations say, for arbitrary oracles.
* PropImage.v: `C119_plain`, `C119_rejected`, `C119_images`, `C119_spurious`, `C119_unknown`, `C119_defaults_dropped_refuted`, `C119_stale_refuted`, `C119_unlabelled_refuted`
* Remarks: The ordinary audit, CleanVision and the correlation step are arbitrary functions; names outside the seven defaults without parameters raise KeyError (C119_unknown).

### C120 - A Datalab holds the user's dataset and labels whatever format they come in (proved)

Columns are plain values, ClassLabel codes or lists; the construction is a total function returning the exception otherwise. Numbering follows from the sortedness of np.unique (C24); the formats are compared by showing that the labels depend on the columns only; equality by computing with the identity hash and np.array_equal (unequal for ragged lists).
* PropData.v: `C120_classification`, `C120_multilabel`, `C120_class_label`, `C120_regression`, `C120_unlabelled`, `C120_formats`, `C120_file`, `C120_refused`, `C120_equal`, `C120_equal_again`, `C120_unlabelled_code_refuted`, `C120_ragged_refuted`, `C120_copy_refuted`
* PropTight.v: `C120_equal_labels`, `C120_equal_labels`
* Remarks: hash of a Dataset is taken to be its identity (object.__hash__); the loaders of the datasets package are arbitrary functions; labels without a total order (None, nan) are not modelled.

### C121 - print(datalab) tells whether checks ran and how many issues were found (proved)

On the audit histories of C44: the table invariants give one summary row per check that succeeded, whose count is the number of flags in its column; the printed text is compared with an explicit concatenation.
* PropData.v: `C121_printed`, `C121_repr`, `C121_empty_refuted`

### C122 - All checks of a Datalab share one neighbour graph of the features given (proved)

State machine over the list of checks; the rest of every check is an oracle that says whether it raises. Invariant: the stored graph was built from the given features for one of the k asked for so far and carries its own metric. The refutations run concrete histories with a search on a line.
* PropGraph.v: `C122_used`, `C122_stored`, `C122_grows`, `C122_provided`, `C122_provided_kept`, `C122_pred_probs`, `C122_metric_refuted`, `C122_pred_probs_refuted`, `C122_shrinks_refuted`, `C122_order_refuted`
* Remarks: True for equal features and metric. The refuted theorems show what happens otherwise: a metric label that does not belong to the stored graph, a stored graph of predicted probabilities, a larger graph replaced by a smaller one, and outlier flags that depend on the k of earlier checks.

### C123 - Counts, joints and thresholds of multi-label data are the per-class one-vs-rest ones, for every class list (proved)

Each multi-label function is the loop over classes of the single-label function of C01-C06 on the one-vs-rest problem; the theorems restate the results in terms of which examples have the class. A class on all or none of the examples has a zero row in its calibrated counts, which needs the general form of C02/C03 (rows may vanish for labels that do not occur).
* PropMultiCount.v: `C123_thresholds`, `C123_joint`, `C123_calibrated`, `C123_count`, `C123_predicted_neq_given`, `C123_predicted_neq_given_raises`, `C123_calibrated_refuted`, `C123_calibrated_pairing_refuted`, `C123_uninitialised_refuted`, `C123_method_refuted`
* Remarks: calibrate needs every class to occur and one matrix per class; the refuted theorems show the shortened, mispaired or unwritten matrices otherwise, and that num_label_issues ignores estimation_method. find_predicted_neq_given raises when a class is on all or none of the examples.

### C124 - A class declared free of label errors is never flagged (proved)

ModelLearn.pu_adjust and find_label_issues (classification.py 893-903), ModelFilter.find_label_issues. In the calibrated joint every off-diagonal entry of the trusted row is zero, prune_by_noise_rate therefore asks for zero examples with that label and any other class, so no threshold test succeeds in that row; 'both' intersects with it. For CleanLearning the confident joint in use always has passed through pu_adjust before the filter runs, whatever the history.
* PropPU.v: `C124_noise_free_class`, `C124_never_flagged`, `C124_matrices`, `C124_other_filters_refuted`, `C124_low_memory_refuted`, `C124_count_refuted`, `C124_second_call_refuted`
* Remarks: num_to_remove_per_class is excluded by hypothesis. Boundaries proved as refutations: the other filters and low_memory flag examples of the trusted class; the confident joint's count of the other class is overwritten by 1, so a second call on the same data estimates other class frequencies.

### C125 - The PyTorch wrapper predicts row r for example idx[r] (proved)

ModelCnn. chunks of any size concatenate to the data, the forward pass maps over them, and indexing is a list of nth_error.
* PropCnn.v: `C125_rows`, `C125_all`, `C125_predict`, `C125_batch_sizes`, `C125_unnamed`, `C125_rejects`, `C125_reordered_refuted`, `C125_first_examples_refuted`
* Remarks: The network is an argument. Boundaries proved as refutations: with as many indices as examples the answers come in the order of the data, and the indices 0..n-1 with n the number of test examples are answered for the test data.

### C126 - The PyTorch wrapper trains once per epoch on every listed example with its given label (proved)

ModelCnn. The sampler's orders are arbitrary permutations of the positions; the sparse target array is the initial array after the listed writes, which for distinct indices holds the label given for each; class weights are read at the first occurrence of every class in ascending order, and K ascending integers in 0..K-1 are all of them.
* PropCnn.v: `C126_epochs`, `C126_result`, `C126_completes`, `C126_class_weights`, `C126_loss`, `C126_repeated_refuted`, `C126_missing_class_refuted`, `C126_own_weights_refuted`, `C126_clone_refuted`
* Remarks: The optimiser step is an argument. Boundaries proved as refutations: an index listed twice is trained on twice with its last label, sample weights fail when a class is missing and only the first weight of each class counts, a clone forgets loader and seed.

### C127 - Splitting and lending feature rows keeps every example intact (proved)

ModelFeatures, SpecFeatures (the examples held by a feature object; a sparse entry is the sum of the values stored for it). The row pointers of the stacked matrix are those of the first followed by those of the second shifted by the number of stored entries, so every row reads its own slice of the joined arrays.
* PropFeatures.v: `C127_split`, `C127_append`, `C127_sparse`, `C127_flatten`, `C127_compress`, `C127_images_refuted`, `C127_vector_refuted`, `C127_list_refuted`, `C127_spare_room_refuted`, `C127_flatten_empty_refuted`, `C127_compress_refuted`
* Remarks: Boundaries proved as refutations: lending fails for arrays with one or more than two axes, lists cannot be split, a sparse matrix with spare room in its arrays is stacked wrongly.

### C128 - The summary row and the info of Datalab's label check agree with its table (proved)

label_check runs CleanLearning on a new object, then health_summary with the parameters chosen by _get_summary_parameters, and collects the info. The score is traced to num_label_issues, whose count C06 identifies example by example; the low-score filters by C14; counts by C02, tables by C50. Proof by inverting a completed run.
* PropLabelInfo.v: `C128_score`, `C128_same_score`, `C128_matches_flags`, `C128_table`, `C128_classes`, `C128_overlap`, `C128_counts`, `C128_parameters`, `C128_share_refuted`, `C128_parameters_refuted`
* Remarks: The neighbour search, the argsort and the matrix inverse are arguments. Boundaries proved as refutations: with the default filter score and number of flags of one row differ, and a confident joint, a joint with the number of examples, or parameters without class names make the check fail.

### C129 - Active learning with an ensemble scores by quality and weight, and overwrites the caller's probabilities in a known way (proved)

ModelActive is a state-passing model over a heap of arrays. Loop invariants for the two in-place loops give the arrays after the call; the scores are characterised by weighted averages and the order facts of C37 are reused.
* PropActive.v: `C129_arrays`, `C129_scores`, `C129_order`, `C129_unlabelled_only`, `C129_one_model`, `C129_rejected`, `C129_calibrated_quality`, `C129_untouched_refuted`, `C129_same_array_refuted`, `C129_failed_call_refuted`, `C129_uniform_refuted`
* Remarks: Temperature search, scaling, square root and random choice are arguments. Boundaries proved as refutations: the caller's arrays are overwritten, twice when one array is passed for both arguments and also when the call then raises; when the models disagree an unlabelled example can score below 1/K; a single model cannot score unlabelled examples.

### C130 - Noise estimated with the library's own cross-validation (proved)

The cross-validation theorem of C47 gives the predictions; calibration (C02) gives the row totals. The latent estimates are characterised column by column. For moderate noise an invariant (prior, noise matrix and inverse equal the proportions of the table) is shown to hold initially for each py method and to be preserved by each step of the convergence loop and each clipping. The parts and the own cross-validation are by computation on the result type. Two boundary cases refuted by concrete datasets.
* PropEstimate.v: `C130_estimates`, `C130_exact`, `C130_own_cross_validation`, `C130_parts`, `C130_noise_matrix_refuted`, `C130_methods_refuted`
* Remarks: Two boundary findings: when rounding during calibration leaves a class without any counted example, its column of the returned noise matrix is all zero although the columns are documented to sum to one; when no correctly labelled example of a class is counted, py_method cnt puts its share near zero although examples are counted into it, while marginal gives the counted share.

### C131 - Confident learning is exact when predictions separate the true classes (proved)

Against a list of true classes that the code never sees. The true class is shown to be reached and to be the only class an example can be counted into (ideal predictions), so the confident joint is the true table; calibration and the two rounding steps leave an integer table with matching row sums unchanged; the estimates then follow from C130. The pruning plan is shown to be the table itself, and a counting argument (as many picked as there are wrong labels, all wrong ones rank first) gives exactness of the pruning and low-score filters.
* PropIdeal.v: `C131_exact_issues`, `C131_exact_margin`, `C131_scores_separate`, `C131_exact_counts`, `C131_exact_noise`, `C131_class_conditional`, `C131_exact_pruning`, `C131_every_filter`, `C131_uniform`, `C131_plan`, `C131_row_maximum_refuted`, `C131_prune_by_class_refuted`
* Remarks: without the row condition an error can be missed, and prune_by_class can miss errors that the default filter finds; both shown by example

### C132 - Everything built on confident learning is exact when the predictions separate the true classes (proved)

Each wrapper is unfolded to the classification finder on the flattened data (ProofExact.v): `fit` runs the search, whose mask is the set of wrong labels by C131, and trains on its complement; the weights come from the estimated noise matrix, which C131 shows to be the true frequencies. The batched search is reduced with the C95 characterisation of its flags, tokens and pixels with the index translations of C30 and C32, multi-label data with the one-vs-rest reduction of C34 (`ml_ideal`: each one-vs-rest problem is separated).
* PropExact.v: `C132_training`, `C132_training_low_memory`, `C132_batched`, `C132_tokens`, `C132_tokens_any_filter`, `C132_pixels`, `C132_multilabel`, `C132_multilabel_uniform`
* Remarks: fit: new object, labels in an array, no noise rates, thresholds or joint passed, all of the estimated noise to be removed; segmentation without downsampling; multi-label with the filters confident_learning and predicted_neq_given

### C133 - Removing the reported label issues leaves nothing to report, except where thresholds fall (proved)

`kept m l` drops the flagged entries (SpecTwice.v). Position map between cleaned and original data (`kept_at`); being beaten by another class depends on one example only, so predicted_neq_given leaves no candidate for any filter (C07), and with no candidate the count is 0 and the low_* filters return nothing (C14). Two classes: the flagged examples of a class are exactly those with the lowest probability for it, so removing them raises the class average (`threshold_up`), and nothing new reaches the higher threshold. Separating predictions: confident_learning and predicted_neq_given flag the same set (C131). The exceptions are concrete datasets computed in the model.
* PropTwice.v: `C133_disagreements_removed`, `C133_relabelled`, `C133_binary`, `C133_separating`, `C133_second_round_refuted`, `C133_pruned_fraction_refuted`
* Remarks: with three classes a second round of confident learning can flag examples the first kept (removing an example above its class average lowers the threshold); pruning a fraction of the noise leaves the rest to the next round

### C134 - Small differences in the predicted probabilities do not change the issues, unless a comparison is nearly tied (proved)

`close d` and `clear_cut d` (SpecStable.v) speak about the probabilities and the thresholds returned by get_confident_thresholds. Averages of values within d are within d (`thr_close`), hence every comparison with a threshold, every lead over the given label and, where needed, the most likely class is decided alike (`reaches_close`, `counted_close`, `beaten_close`); the confident joint counts the same pairs cell by cell (`joint_close`), so calibration and pruning plans are literally equal; the sorted filters choose the lowest elements of a set, which are unique when values are apart (`lowest_unique` from C114). The example has a class with a single example, whose probability equals its threshold: the tolerance 1e-6 is what keeps it clear of a tie.
* PropStable.v: `C134_issues`, `C134_counts`, `C134_thresholds`, `C134_scores`, `C134_near_tie_refuted`
* Remarks: scores: self_confidence and normalized_margin without adjustment; the model computes with exact numbers, so this also bounds what floating point rounding of the inputs can change

### C135 - Less agreement with the given labels never makes issues disappear (proved)

`rule` (ProofMonotone.v) removes the case distinction of the confident joint: a clearly beaten label is not the most likely class, so an example is counted elsewhere as soon as one other class reaches its threshold. Thresholds are averages of own probabilities and fall (`thr_less`), being beaten is kept (`beaten_less`), so flags are kept. Scores by the characterisation of C15.
* PropMonotone.v: `C135_rule`, `C135_issues`, `C135_count`, `C135_scores`, `C135_low_filter_refuted`
* Remarks: the low-score filters are refuted by example

### C136 - A class that no example is labelled with does not matter (proved)

ModelCount, ModelFilter, ModelRank as they are; `with_class` appends a column. The appended column's threshold is the constant 2 (no examples), so it never reaches it; the issues are compared through the rule of C135 and, for low_self_confidence, through equality of the scores that are sorted.
* PropUnused.v: `C136_thresholds`, `C136_issues`, `C136_scores`, `C136_likelier_refuted`
* Remarks: the additional class is the last one (any other position is a renumbering, C115); the refutation is for a column above the given label

### C137 - What the object-detection search finds and what it leaves alone (proved)

ModelDetection as it is; derived from the meaning of the box scores (C73), of the mask (C53) and the range of average precision (C39). Examples computed with a similarity that is 1 for equal centres.
* PropDetFind.v: `C137_agreement`, `C137_overlooked`, `C137_bad_location`, `C137_swapped`, `C137_swap_missed_refuted`
* Remarks: without a pair of boxes of little similarity in the data set no swapped label is found: the least similarity bounds the swap scores from below (C137_swap_missed_refuted)

### C138 - The order of multi-label examples, sentences and batches, and the numbering of multi-label classes, do not matter (proved)

ModelMultilabel, ModelToken and ModelBatched as they are; from C114 applied to each one-vs-rest problem and to the concatenated tokens, and from C95 for the batched search. multi-label: ml_n_jobs=1 and num_to_remove_per_class=None for reordering examples.
* PropReorder.v: `C138_examples`, `C138_classes`, `C138_sentences`, `C138_batched`, `C138_batched_tied_refuted`
* Remarks: with tied scores the batched search flags another of the tied examples after reordering (C138_batched_tied_refuted)

### C139 - Cross-validated predicted probabilities for multi-label data (proved)

New model ModelMultiCV. np.unique(axis=0, return_inverse) is insertion into a sorted list and position search; the splitter and classifier are universally quantified.
* PropMultiCV.v: `C139_ids`, `C139_out_of_sample`, `C139_own_label`, `C139_rejects`, `C139_told`, `C139_prior`, `C139_always_present_refuted`
* Remarks: for data where every class is present on some and absent from some example; a class present on every example is trained as absent (C139_told, C139_always_present_refuted), because cross_val_predict re-encodes the columns of the labels

### C140 - Datalab's label check for multi-label data (proved)

The keyword dictionaries are filtered as in the code and read with the defaults of the two functions. `C140_flagged_differs` follows from C63 (a flagged example clearly disagrees in some class) and the characterisation of the predicted labels. `C140_keywords` is proved for all pairs of dictionaries that agree on the documented names.
* PropMultiCheck.v: `C140_default`, `C140_reported`, `C140_flagged_differs`, `C140_predicted_neq_given`, `C140_keywords`, `C140_universal_class_raises`, `C140_low_refuted`
* Remarks: the low_* filters flag examples whose predicted labels equal the given ones (C140_low_refuted); low_memory=True not included; softmin aggregation not modelled

### C141 - Shuffling the examples of multi-annotator data shuffles the results and nothing else (proved)

Every sum, mean and count over the examples is shown invariant under permutation (Permutation_map, qsum_perm), the tie-breaks respect equality of rationals, and row-wise results commute with picking rows; the random choice is a function of the example, so it moves along (and the refutation shows what happens when it does not).
* PropRows.v: `C141_majority_vote`, `C141_no_draw`, `C141_draw_order_refuted`, `C141_quality`, `C141_quality_ensemble`, `C141_active`
* Remarks: for any table, any permutation of its examples, any predicted probabilities and any number of models; np.sqrt abstract (positive, respects equality); a random choice left after all tie-breaks is made per example (C141_draw_order_refuted: a generator consumed in row order does not move along)

### C142 - The multi-label health summary is consistent (partial)

Modelled: the summary as four calls of the per-class issue finder, each with its own pool schedule. Proved: every schedule either never returns or finds the same masks (C10), so the three parts describe the same issues; counting arguments (splitting by the given annotation, union bound over the classes) relate the counts.
* PropMultiHealth.v: `C142_consistent`, `C142_no_labels`, `C142_confident_joint_refuted`, `C142_label_noise_refuted`
* Remarks: The agreement of the three parts without a confident joint and the error without labels are proved. Refuted: rank_classes_by_multilabel_quality forwards joint instead of confident_joint, so with a confident joint the class table contradicts the rest; Label Noise is divided by all examples.

### C143 - Ensembles of models in multi-annotator data (proved)

Uses ModelMultiannotator. The vote reads the predictions only through their values (so the average of one model, and of permuted models, gives the same vote); posterior sums over the models are invariant under permutation; the weight is an antitone function of the number of contradicted examples.
* PropModels.v: `C143_one_model`, `C143_model_order`, `C143_better_model`

### C144 - Shuffling the examples shuffles the results of Datalab's checks (proved)

Reuses ModelChecks, ModelKnn and ModelOutlierCheck. Every quantity the checks compute over the whole data set (class frequencies, means, medians, cluster means) is invariant under permutations up to equality of rationals; the per-example parts are mapped. For data valuation the closed form of C76 is used (the examples that have i among their neighbours are permuted), for near duplicates the characterisation of the sets in C41. The renumbered graph is a hypothesis: which of several equally distant neighbours a search returns is not determined.
* PropShuffle.v: `C144_imbalance`, `C144_null`, `C144_underperforming`, `C144_valuation`, `C144_near_duplicates` [A2], `C144_outliers_pred_probs` [A3], `C144_flagged_group_refuted`
* Remarks: the kNN outlier check is covered by C85_order; C144_flagged_group_refuted is a witness that the flagged group depends on the visiting order of the set of ids

### C145 - The order of the images and boxes of object-detection data does not matter (proved)

Model: ModelDetection (detection_scores, find_label_issues_mask, ap_class). Spec: SpecPictures (keeps, same_picture, distinct_probabilities). Each box score is rewritten as a function of the box and of the multisets of given and predicted boxes; maxima over permuted lists agree, the least similarity of the data set is unique, softmin is symmetric (C145_scores). The average precision depends on the list of (probability, true positive, false positive) sorted by probability, which is unique when the probabilities differ (C145_precision), hence the mask (C145_mask).
* PropPictures.v: `C145_scores` [A1], `C145_moves`, `C145_mask_given_precision`, `C145_precision`, `C145_mask`, `C145_tied_probabilities_refuted`
* Remarks: for every distance function with values in [0, 1] (_euc_dis is one); C145_tied_probabilities_refuted is the witness that ties matter for the mask

### C146 - The unit of measurement does not matter (proved)

scaled_graph multiplies all distances by c. The median scales with them (ProofUnits.median_scaled), so comparisons with threshold * median are the same and sets are equal. Scores depend on distance / median only. Hypotheses: the median (of nearest-neighbour distances, of mean distances) is at least 1e-6 in both units, because the code replaces smaller medians by 1e-6; single distances are 0 or above the tolerances (1e-8 and at most 1e-6) in both units. For the estimator the search, the duplicate correction and the median are oracles assumed to scale.
* PropUnits.v: `C146_near_duplicates` [A2], `C146_outliers` [A1], `C146_estimator` [A1], `C146_tiny_units_refuted` [A2]
* Remarks: Distances scaled by any positive factor; the median distance must not be below 1e-6 in either unit (the floor the code uses), which the refutation shows to be needed.

### C147 - How tokens are divided into sentences does not matter (proved)

same_text: equal concatenations. The finder works on the concatenation, and looking up a position in mapping_flatten is inverse to position (ProofToken.mapping_position), so the reported tokens have the same positions. Summaries read tokens, labels and predictions at positions of the concatenation. Sentences must not be empty for the scores (np.min of an empty sentence raises) and the first sentence not for common_label_issues (a simplification of the model, numpy arrays of shape (0, K) work).
* PropRegroup.v: `C147_issues`, `C147_errors`, `C147_scores`, `C147_filter`, `C147_common_tokens`, `C147_common_swaps`

### C148 - Repeating the checks of a Datalab and changing their order (proved)

On ModelGraph. A store that holds a graph with at least as many neighbours as any check asks for, under a metric compatible with theirs, is a fixed point of every check (ProofRerun.settled_check). The first check brings the store into that state. The graph determines what a check reports, except that the outlier check corrects precision errors only when it built the graph itself (the metric is not passed on with a stored graph).
* PropRerun.v: `C148_rerun`, `C148_order`, `C148_alone`, `C148_more_neighbors_refuted`, `C148_order_refuted`
* Remarks: The condition that the first check asks for the largest number of neighbours is needed, as the two refutations show.

### C149 - Identifier columns are found whatever container the features come in (proved)

ModelIdentifier on top of ModelChecks' identifier_check. A transposition lemma relates an array of rows to its columns; `numbering` (a permutation of consecutive integers) is stated without reference to the check's unique/diff computation and shown to satisfy it.
* PropIdentifier.v: `C149_containers`, `C149_array`, `C149_documented`, `C149_other_array`, `C149_rejected`, `C149_binary_refuted`, `C149_list_of_rows_refuted`
* Remarks: Exact for every table. The refutations record a false positive (binary columns) and two container pitfalls.

### C150 - The clusters behind Datalab's underperforming-group check (proved)

ModelGroups. The arguments are related to the user's by lookup (`get`); the reshape of the stored graph is shown to pick the first neighbour of each row when all rows are equally long; the two ways of supplying clusters are compared by an equivalence.
* PropGroups.v: `C150_arguments`, `C150_given_or_computed`, `C150_counted`, `C150_labels`, `C150_recorded_params_refuted`
* Remarks: DBSCAN is an arbitrary function of the arguments it receives and the graph.

### C151 - The numbering of the classes of multi-annotator data does not matter (proved)

ModelMultiannotator is run on the table with every label k replaced by names[k] and on matrices whose column names[k] holds what column k held. The candidates of every tie-breaking pass are shown to be a permutation of the renamed candidates, so a vote decided without a draw is renamed; agreements, likelihoods and annotation weights are identical; the most frequent consensus class has the same number of members; the posterior is renamed entry by entry and with it the best-quality label; the worst class follows from its specification (C68) when no two labels tie.
* PropRename.v: `C151_votes`, `C151_votes_with_probabilities`, `C151_quality`, `C151_ensemble`, `C151_active`, `C151_draw_refuted`, `C151_tied_prediction_refuted`, `C151_worst_class_refuted`
* Remarks: Random draws, tied predictions and labels of an annotator tied in everything are where the numbering shows; each has a counterexample.

### C152 - The numbering of the classes does not matter outside confident learning either (proved)

Existing models only. The estimator is related to itself by `renamed_state` (its thresholds are permuted) and the relation is carried through every call; entropy and least confidence do not depend on the order of the entries of a row (permutation invariance of `rsum`/`qmaximum`), adjusted rows are the permuted adjusted rows. Imbalance, valuation and underperforming groups: the counts, the Shapley rows and the own-class probabilities are unchanged. The batched search and segmentation use the characterisations of C21/C32 (which examples are counted, which are ranked lowest) on both sides; when scores are distinct the lowest ones are unique. Tokens: C115 on the flattened data, then the orders of C30.
* PropNumbering.v: `C152_estimator` [A1], `C152_imbalance`, `C152_imbalance_tied_refuted`, `C152_imbalance_absent_refuted`, `C152_valuation`, `C152_underperforming`, `C152_features`, `C152_scores`, `C152_batched`, `C152_tokens`, `C152_tokens_low_memory`, `C152_token_scores`, `C152_segmentation`, `C152_pixel_scores`, `C152_downsampled_refuted`
* Remarks: Proved as stated; the exceptions named in the statement (tied or absent classes in the imbalance check, downsampling) are the refuted theorems.

### C153 - The numbers CROWDLAB returns are the ones its definition prescribes (proved)

No new model. `SpecCrowdlab` writes the definition of CROWDLAB down again without the helpers of the model: sums over annotators by position, averages as a relation, agreement as a list of encounters between two labels of one example. The theorems start from the result of the public functions (validation, majority vote, second pass with the best-quality labels included).
* PropCrowdlab.v: `C153_crowdlab`, `C153_ensemble`, `C153_annotator`, `C153_annotator_ensemble`, `C153_active`
* Remarks: Proved as stated, in exact arithmetic and without temperature scaling (the scaled probabilities are the input).

### C154 - The correlation report of an image audit names the right properties and shows the right images (proved)

The report is a function from the stored state to either an exception, nothing, or the table and the image pairs it shows. `str.replace('_score','')` is specified by an inductive relation (leftmost occurrences removed) proved deterministic; `idxmin`/`idxmax` by first-lowest/first-highest. The audit theorem composes with the image audit of C80/C119: which columns are collected, which stored.
* PropCorrReport.v: `C154_silent`, `C154_shown`, `C154_names`, `C154_audit`
* Remarks: CleanVision, the classifier scored on a property and the drawing of the images are oracles; C154_failed_refuted: when CleanVision fails after scoring, the report raises KeyError; C154_zero_refuted: a threshold of 0 switches the report off; C154_same_name_refuted: a check whose name contains _score is printed under another name

### C155 - Where a pixel lies does not matter in segmentation (proved)

The flat list of (label, probability row) pairs of the rearranged stack is a permutation of the original one (the pixels of a stack are a duplicate-free list); counted pixels depend on the permutation class only, the ranked positions are the uniquely determined lowest ones, and C32 turns positions into pixels. For whole images with downsampling the same is applied to the downsampled stacks.
* PropArrange.v: `C155_issues`, `C155_arrangements`, `C155_images`, `C155_image_scores`, `C155_pixel_scores`, `C155_common`, `C155_filter`
* Remarks: C155_tied_refuted: with tied label probabilities the flagged pixel depends on the arrangement; C155_downsampled_refuted: with downsampling it matters which pixels share a square

### C156 - The numbering of the classes of object-detection data does not matter (proved)

Model: ModelDetection. Spec: SpecRelabel (renamed_boxes, renamed_predictions). The box scores are rewritten as functions of the box (ProofPictures); renaming is injective on the classes in use, so every filter by class selects the same boxes, and the list of predictions of an image is a permutation of the renamed list. The average precision of a class sees exactly the same arrays. PropRelabel also shows that renaming the annotations alone changes the flags.
* PropRelabel.v: `C156_scores` [A1], `C156_given_boxes`, `C156_predicted_boxes`, `C156_precision`, `C156_flags` [A1], `C156_annotations_only_refuted`

### C157 - Scoring a data set part by part gives the same scores (proved)

No new model. Every scoring function is a map over the examples once its validation has passed; validation of the whole is related to that of the parts by a specification of the checks (avi_spec, avm_spec). The image scores of object detection use one number of the whole data set, the least non-zero similarity, whose minimum over the parts is the one of the whole.
* PropParts.v: `C157_labels`, `C157_ensemble`, `C157_multilabel_classes`, `C157_multilabel`, `C157_tokens`, `C157_pixels`, `C157_residual` [A1], `C157_ood_probabilities` [A1], `C157_ood_features` [A1], `C157_badloc`, `C157_images` [A1], `C157_adjusted_refuted`, `C157_accuracy_refuted`, `C157_parts_refuted` [A1], `C157_overlooked_refuted`
* Remarks: The boundary cases of the statement are proved by the _refuted theorems.

### C158 - The confusion-matrix baseline finds what it says, and calibration does nothing (proved)

`C158_calibration`: the rows of the matrix already sum to the label counts, so calibration multiplies by one and rounds integers (also when classes are missing, because `value_counts` then returns the counts of the classes present). The flagged examples are counted with the selection lemmas of C07-C09.
* PropConfusion.v: `C158_calibration`, `C158_other_filters`, `C158_total`, `C158_missing_class`, `C158_by_class`, `C158_agreement`, `C158_two_classes`, `C158_three_classes_refuted`, `C158_missing_refuted`
* Remarks: A single predicted class (numpy broadcasts the one-column matrix) is not modelled.  Refutations: with three classes the baseline is not predicted_neq_given; with a class that is never predicted or never given it raises where find_label_issues answers.

### C159 - Repeating the examples repeats the results of the other methods (proved)

ProofCopies shows that sums, counts and selections over a list holding every item c times are c times (a permutation of c copies of) the original ones, hence every average is unchanged; the model of multiannotator.py is traced through with that, and ProofCopies2 does the same for the class thresholds behind adjusted scores, the class counts, the one-vs-rest data sets and the smallest similarity of a detection data set. Draws are an argument of the model; with draws that differ between copies the claim is refuted by an example.
* PropCopies.v: `C159_majority_vote`, `C159_quality`, `C159_quality_ensemble`, `C159_active`, `C159_scores`, `C159_imbalance`, `C159_multilabel`, `C159_images` [A1], `C159_draw_refuted`
* Remarks: multi-annotator consensus, adjusted quality scores, class imbalance, multi-label issues and image scores of repeated data; C116 is the single-label counterpart

### C160 - What the report says about missing values (proved)

The flags and scores of the null check (ModelChecks) are put into the Datalab state by any history of checks (ModelDatalab); the columns found there by the report are those of the latest run (audit_latest), and filtering them counts the rows with all or some values missing. Whether there is a section follows from C111.
* PropNullReport.v: `C160_notes`, `C160_section`, `C160_silent_refuted`
* Remarks: counts in the notes of the null report and when they are shown

### C161 - Data-valuation scores approximate the Shapley value within 1/k (proved)

SpecShapley defines the Shapley value as the gain averaged over all orders of the players, for any complete list of orders. ProofShapley enumerates the orders by inserting one player at a time, farthest last, writes the nearest-neighbour game as a sum of games that pay if a given player takes part and fewer than K nearer ones do, and computes the values of those by counting positions; this gives the recursion of Jia et al. (2019) and the bound 1/i on the value of the i-th nearest example for i >= K. The scores come from C27.
* PropShapley.v: `C161_shares`, `C161_bound`, `C161_relative`, `C161_sign_refuted`, `C161_order_refuted`
* Remarks: exact Shapley values of k-nearest-neighbour classification, defined over all orders of the examples, against the scores returned

### C162 - Sum-preserving rounding gives the closest integers (proved)

The models of round_preserving_sum and calibrate_confident_joint are those of C01 and C02. Loop invariant (for any amount of fuel): the residuals x - z differ by at most 1 from one another, because the loop raises the largest and lowers the smallest. From that, with m the increment of the cost at the smallest error, moving an entry by d costs at least d*m, and the moves of an alternative with the same sum add up to 0.
* PropRounding.v: `C162_best`, `C162_usual_errors`, `C162_rows`, `C162_calibrated`
* Remarks: Optimality among all integer lists with the same sum, for every convex cost.

### C163 - The batched search agrees with the standard one (partial)

Existing models (ModelBatched, ModelCount, ModelFilter). Both counts are turned into counts of sets of examples (C06 and the state machine of C21/C95); the batched set is contained in the standard one, and the difference is the set of overlooked examples, which is empty for two classes. The lowest-scored examples are all clearly beaten by counting (pigeonhole), which makes the masks equal. Full agreement is false: see the refutations.
* PropApprox.v: `C163_count_partial`, `C163_two_classes_count`, `C163_same_issues_partial`, `C163_two_classes`, `C163_three_classes_refuted`, `C163_missing_class_refuted`, `C163_calibrated_refuted`
* Remarks: Exact agreement for two classes; in general the standard count exceeds the batched one by the number of overlooked examples. False as documented for three classes (0 against 3), for classes without examples, and for calibrated counting.

### C164 - The calibrated number of issues is at least the uncalibrated one (partial)

Uses ModelIssueCount as it is. Per row of the confident joint: with c counts on the diagonal (raised to at least 1), f off it and n examples, calibration puts less than c*n/(c+f)+1 on the diagonal. If c+f <= n this is at most n-f, so the row keeps its f issues; c+f = n+1 happens only when all n examples are counted elsewhere, and costs at most one. The off-diagonal counts of a row are summed by predicted class and the rows by given class.
* PropCalibCount.v: `C164_at_least_partial`, `C164_bound`, `C164_always_refuted`
* Remarks: True when every class has an example not confidently counted elsewhere; off by at most one per remaining class otherwise. The documented 'always' is false (2 against 1).

### C165 - The softmin temperature moves the overall score between the lowest and the average score (proved)

softmin_sentence, softmin1d and softmin_image are reduced to the mean of the scores weighted by exp(-s/T) (the shift by the maximum cancels). Monotone in T by a weighted Chebyshev inequality; the distance to the minimum from x <= exp(x), the distance to the average from 1 - exp(-x) <= x.
* PropSoftmin.v: `C165_one_function` [A2], `C165_temperature` [A1], `C165_low` [A1], `C165_high` [A1]

### C166 - Improving one item never lowers the overall score (partial)

Replacing u by u' changes the weighted mean m in the direction of (u'-m)exp(-u'/T) - (u-m)exp(-u/T), which is compared through 1+x <= exp(x) only. Several items at once by replacing them one after the other.
* PropSoftmin.v: `C166_raise_partial` [A1], `C166_too_high` [A1], `C166_warm` [A1], `C166_tokens_refuted` [A1], `C166_boxes_refuted` [A1]
* Remarks: Exact dividing line: one temperature above the pooled score. False in general at the default temperatures (refuted for tokens and boxes).

### C167 - Systematic over- or underconfidence in a class does not matter (proved)

The threshold of a class is an average of its own probabilities, so it is stretched and shifted with them (thr_rescaled), and reaching the threshold is preserved (reaches_iff; the 1e-6 tolerance is the only part that does not scale). Without collisions counted_as is reaches, so all cells and the sorted index lists agree.
* PropRescale.v: `C167_joint`, `C167_estimates`, `C167_flags`, `C167_collisions_refuted`
* Remarks: The condition on examples confident for two classes is needed (refuted without).

### C168 - Class imbalance does not matter to confident learning (proved)

Sums over the copies are sums over the examples weighted by the number of copies (double_count); the weight is the same for all examples of a class, so the average of a class - its threshold - does not change (thr_same), and counts restricted to a class are multiplied (holds_scaled). The copies are described by a map from positions to original positions, so any order is covered.
* PropResample.v: `C168_thresholds`, `C168_joint`, `C168_flags`, `C168_scores`, `C168_prune_refuted`
* Remarks: Proved for confident_learning; the pruning filters are refuted by an example.

### C169 - Aggregation weights of object-detection image scores (proved)

The logarithm of an image score is linear in the weights (scores_log, moved_log), with coefficients ln(subtype score + 1e-100); all five statements are inequalities between such sums. The subtype scores are those of the public functions compute_*_box_scores and pool_box_scores_per_image.
* PropBoxPool.v: `C169_only` [A1], `C169_between` [A1], `C169_monotone` [A1], `C169_move` [A1], `C169_priority` [A1]
* Remarks: C169_between assumes weights that add up to exactly 1 (the library accepts 1 +- 1.001e-5).

### C170 - One example has little influence on the others (proved)

Sum and number of the examples of a class are split into those of the other examples and that of the replaced one (pos_split); two averages that share all but one value in [0,1] differ by at most 1 over the larger number (one_value), and the lower bound on thresholds does not increase the distance (qmax_lip). An example not that close to a threshold reaches it before and after.
* PropReplace.v: `C170_thresholds`, `C170_flags`, `C170_last_refuted`
* Remarks: Replacing the only example of a class is excluded by the quantifier; C170_last_refuted shows why.

### C171 - Counting classes (proved)

np.unique as insertion into a sorted list; the indexed assignment as a fold, with Python's negative indices. The counts are compared with count_occ of the standard library, independently of whether the early exit is taken (the sorted list of K different labels below K is 0..K-1).
* PropClasses.v: `C171_counts`, `C171_counts_multi`, `C171_compact`, `C171_words`, `C171_outside`, `C171_outside_refuted`, `C171_negative_refuted`, `C171_far_below`, `C171_unique`, `C171_missing`, `C171_missing_options`, `C171_mixed_refuted`, `C171_number`, `C171_number_refuted`
* Remarks: Boundary cases: labels [0, 2] with num_classes=2 are counted as [1, 1] without an error; a negative label is counted at the index from the end, or lost; the mixed form [1, [1,2], ...] that the docstring of get_unique_classes shows always raises TypeError; the number of classes found from labels that skip a class is not above every label.

### C172 - Two exclusive classes give the same issues and scores as multi-label data (proved)

No new model: ModelMultilabel, ModelFilter and ModelRank on the same data.  The thresholds of the one-vs-rest problem of a class equal those of the two-class problem with the classes exchanged (averages of complemented probabilities), so a class is reached in one problem iff it is in the other; ahead-by-the-tolerance conditions coincide except at an exact gap for label 0.
* PropExclusive.v: `C172_flags`, `C172_scores`, `C172_gap_refuted`, `C172_three_refuted`
* Remarks: for two exclusive classes the multi-label and multi-class filters and scores coincide; a gap of exactly the tolerance 1e-6 for label 0 is decided differently and three exclusive classes differ, both shown by counterexamples

### C173 - Which types of labels, features and predictions are taken (proved)

A nested list has shape [n] iff all its elements are leaves, so each accepted container is one of the four one-dimensional forms; the check then only depends on the values (C104 lemmas).
* PropContainer.v: `C173_same`, `C173_refused`, `C173_features`, `C173_feature_errors`, `C173_predictions`, `C173_prediction_errors`, `C173_nested`, `C173_nested_error`, `C173_multilabel`, `C173_multilabel_assertion`, `C173_multilabel_errors`, `C173_multilabel_refuted`, `C173_features_refuted`
* Remarks: containers, feature objects and prediction objects as data types; boundary findings: multi-label classes that are negative or fractional pass the check, and features are not looked at when predictions are given

### C174 - How method names and aggregator_kwargs of multi-label scores are understood (proved)

Upper-casing identifies exactly the words that agree up to capitals (letter by letter); looking up a key in the updated dictionary equals looking it up in the given one except for method and axis.
* PropScorer.v: `C174_names`, `C174_name_error`, `C174_default`, `C174_moving_average`, `C174_ignored`, `C174_softmin`, `C174_custom`, `C174_refused`, `C174_entropy_adjusted`, `C174_entropy_error`, `C174_entropy`, `C174_per_class`, `C174_weight_refuted`
* Remarks: softmin, the entropy score and user functions are arguments of the model; boundary finding: naming the default method without alpha does not give the default scores (weight 2/(K+1)), and a misspelt alpha is silently ignored

### C175 - Defining custom checks (proved)

`define_class` follows the metaclass, `attribute` the lookup through ancestors. The report theorem is proved first for the slice `values()[: verbosity + 1]` and then, for levels 0..m in order, turned into 'levels at most v'.
* PropCustom.v: `C175_accepted`, `C175_errors`, `C175_attributes`, `C175_levels`, `C175_unsupported`, `C175_shown`, `C175_missing`, `C175_top`, `C175_higher_refuted`, `C175_order_refuted`, `C175_inherited_name_refuted`, `C175_inherited_levels_refuted`
* Remarks: Single inheritance. The report picks levels by position in the dictionary, not by number: with levels that do not start at 0, or in another order, entries of higher levels are shown or requested ones left out (two refutations). Levels inherited from an abstract class are never checked (refutation).

### C176 - Data sets without common classes (proved)

No new model. A part of a data set is described by an embedding of positions; thresholds of the classes of the part agree with those of the whole, classes of the rest stay below the smallest possible threshold (2e-6 minus the tolerance 1e-6). The mask, number and counts follow from the rules behind C04, C06 and C07, once for each part.
* PropApart.v: `C176_issues`, `C176_thresholds`, `C176_counts`, `C176_lowest_refuted`, `C176_confused_refuted`
* Remarks: For the filters low_self_confidence and low_normalized_margin, which flag the lowest scores of the whole, the statement is false (C176_lowest_refuted); likewise once the model confuses classes of the two data sets (C176_confused_refuted). The pruning filters are not covered: they round calibrated counts, whose ties depend on the argsort.

### C177 - Out-of-distribution scores and label quality scores of the same data fit together (proved)

On the existing models of outlier.py (ModelOutlier: fit_score, score, _get_ood_predictions_scores) and rank.py (ModelRank). fit_score is rewritten to the row maxima of the (adjusted) rows, the label quality scores to entries of the same rows; the margin theorem uses that the deleted row contains exactly the other classes. Rational label scores are compared with the real-valued estimator through Q2R.
* PropOodLabel.v: `C177_bound` [A1], `C177_margin` [A1], `C177_predicted` [A1], `C177_total` [A1], `C177_one_class` [A1], `C177_adjusted_argmax_refuted` [A1]
* Remarks: with the default adjustment an example carrying the predicted label may still score below its out-of-distribution score, and labels of a single class are refused by the adjusted out-of-distribution score but not by the label quality score

### C178 - The caution about lost classes names exactly the classes the consensus lost (proved)

ModelLost on top of the models of the majority vote and CROWDLAB. The named classes are characterised by membership; that a named class never wins and that the consensus labels are annotated classes follow from C35_majority_vote; the count follows by comparing duplicate-free lists.
* PropLost.v: `C178_majority_caution`, `C178_quality_caution`, `C178_majority_lost`, `C178_quality_majority_lost`, `C178_best_quality_refuted`
* Remarks: for consensus_method='best_quality' the wording of the caution (number of classes reduced, classes rarely annotated) can be wrong: proved as a refutation

### C179 - Only the proportions within the rows of a supplied confident joint matter (proved)

No new model: `calibrate_confident_joint`, `estimate_joint`, `num_label_issues_from_joint` (ModelCount) and `find_label_issues` (ModelFilter). `SpecProportion.same_proportions` says that rows are positive multiples, `countable` that entries are not negative and that a row is zero or sums to at least 1e-100 (below that the clipping at TINY_VALUE would show). The proof shows that the normalised rows are equal as rationals and that the rounding loop cannot tell equal rationals apart; for the sort this is the hypothesis `respects_eq` (true of the concrete `argsort_ins`). Idempotence uses the row totals of C02. In floating point the rescaled rows may differ in the last bit, which could flip a tie in the rounding.
* PropProportion.v: `C179_calibrate`, `C179_joint`, `C179_num_issues`, `C179_idempotent`, `C179_find_label_issues_refuted`
* Remarks: find_label_issues with a pruning method uses the supplied matrix uncalibrated, so there the scale does matter: proved as a refutation

### C180 - Which proportions of a confident joint the latent estimates use (proved)

No new model: `estimate_latent`, `converge_estimates`, `compute_py` (ModelLatent). `SpecFactor.times` states the factors entry by entry, `count_matrix` that row and column sums are zero or at least 1e-100. The ratios with the row and column sums are equal as rationals; every later step is shown to respect entry-wise equality, by induction on the rounds when converging. py_method='eqn' (a matrix inverse by numpy) is not covered. In floating point the two results agree up to rounding.
* PropFactor.v: `C180_scale`, `C180_rows`, `C180_columns`, `C180_rows_refuted`
* Remarks: a factor for each given label does change the default prior and the noise matrix, although it does not change the calibrated confident joint (C179): proved as a refutation

### C181 - The documented ways of calling the dataset summaries agree (proved)

No new model: the functions of ModelDataset with their optional arguments; `SpecWays` only names the ways of calling them. The confident joint computed from the data has the label counts as row totals (C02), so calibrating it again changes nothing and its sum is the number of examples; the plain normalisation used without labels is then the same computation. `C181_proportions` is C179 carried through the four functions.
* PropWays.v: `C181_classes`, `C181_overlap`, `C181_score`, `C181_summary`, `C181_proportions`, `C181_score_refuted`, `C181_counts_refuted`
* Remarks: two exceptions proved as refutations: the score from labels and pred_probs differs from the score of the joint estimated from them, and without labels the scale of the confident joint changes the number of overlapping examples (C50: the confident joint alone is refused by rank_classes_by_label_quality)

### C182 - Supplying the confident joint that would have been computed anyway changes nothing (proved)

No new model: `find_label_issues`, `find_label_issues_ranked` (ModelFilter), `num_label_issues_method` (ModelIssueCount), `estimate_joint` (ModelCount). On valid data the confident joint can always be computed and is a fixed point of calibration (lemma `ways`, shared with C181). The warnings printed about ignored arguments are not modelled.
* PropNoop.v: `C182_find`, `C182_find_ignored`, `C182_count`, `C182_count_ignored`, `C182_uncalibrated_refuted`
* Remarks: compute_confident_joint(calibrate=False) is not interchangeable with the default: proved as a refutation

### C183 - On multi-label data, supplying the confident joints that would have been computed anyway changes nothing (proved)

No new model: `issues_per_class`, `ml_find_label_issues`, `ml_find_label_issues_ranked` (ModelMultilabel), `ml_estimate_joint` (ModelMultiCount). Success of the multi-label confident joint (C66) gives, for each class, success of the binary confident joint; C182's mask equality is applied per class and carried through the loop. For `estimate_joint` the extra calibration of the supplied joints is shown to succeed because each is already calibrated (C181), which needs every class to be used since the code counts classes from the labels.
* PropNoopMulti.v: `C183_find`, `C183_joint`
* Remarks: estimate_joint is covered only when every class from 0 to K-1 occurs in some example

### C184 - Optional inputs of the noise-matrix algebra are only a speed-up, and its claimed equivalences hold (proved)

Model: `compute_ps_py_inv_noise_matrix` (ModelLatentPs); the rest is ModelLatent. The optional arguments: entry-wise equality of the matrices before clipping, then congruence of `clip_noise_rates` (ProofFactor). `cnt`: the diagonal entries cancel as long as none of them vanishes. Exactness from labels: C19's lemmas for the prior and the posterior, with the frequencies supplied as `ps`.
* PropOptional.v: `C184_ps_optional`, `C184_py_optional`, `C184_cnt_by_counts`, `C184_from_labels`, `C184_cnt_zero_diagonal_refuted`
* Remarks: exact rational arithmetic; np.linalg.inv is any left inverse; with an empty diagonal entry the claimed equivalence is proved false

### C185 - The PU-learning score and the compression of label columns (proved)

Models: `estimate_pu_f1`, `compress_int_array` (ModelPuF1). The counts of the model (filters over zipped lists) are shown equal to counts over positions; the formula is field arithmetic; the F1 bounds compare harmonic and geometric mean of precision and recall. Compression: wrap-around is the identity on the range of the chosen type, which contains the stated values because the comparisons with the type's maximum are strict.
* PropPuF1.v: `C185_value`, `C185_f1`, `C185_nan`, `C185_f1_refuted`, `C185_compress`, `C185_compress_refuted`
* Remarks: exact rational arithmetic; that estimate_pu_f1 is an F1 score, and that compression keeps larger values, are proved false

### C186 - The printed matrices can be read back (proved)

Model: `print_square_matrix` and its three callers (ModelPrintMatrix). `fields` (SpecPrintMatrix) splits a line at its tabs; it is shown to invert the joining of tab-free fields, and decimal numerals contain no tab.
* PropPrintMatrix.v: `C186_printed`, `C186_names`, `C186_vector_raises`
* Remarks: str of a number and rounding are arbitrary functions; the text of a number contains no tab

## Findings: where the code does not do what is documented or expected

Each is a theorem or a computed `Example` of this development (named in parentheses), unless marked *observed*.

**Counting and filtering**
* An example can be counted in the confident joint for a class that is not confident for it when thresholds tie with the floor, and the documented loop differs from the vectorised code (C04_counted_class_is_confident_refuted, C04_documented_loop_refuted).
* `min_examples_per_class` is not respected by `prune_by_noise_rate`, `num_to_remove_per_class` neither (C13_min_examples_noise_rate_refuted, C55_num_to_remove_noise_rate_refuted).
* `frac_noise=0` with `prune_by_class` can still flag (C92_zero_by_class_refuted).
* `confidence_weighted_entropy` gives score 0 to a certain, correct label (C56_certain_correct_label_scores_best_refuted).
* Latent estimates with convergence iterations are not distributions when a class is missing (C18_converged_missing_class_refuted).
* Batched calibrated counting loses updates for batches of 10000 examples or more (C22_calibrated_refuted); unlabelled classes get the threshold 2e-6 in batched mode instead of 2 (C95).
* *Observed*: `value_counts` returns early without validating; single-example classes are never pruned.

**Multi-label, token, segmentation**
* The ranked output of the low-score multi-label filters permutes indices twice (C63_low_ranking_refuted); a class on every example makes issue finding raise (C63_universal_class_raises); `num_to_remove_per_class` removes from the examples *without* the class (C66_num_to_remove_refuted).
* Token `issues_from_scores` raises when all sentences score below the threshold (C31_all_below_refuted); the segmentation version returns one image too many (C33_images_refuted).

**Multi-annotator**
* `value_counts` on float labels writes counts to the first positions (internal/util.py:154-165). Label tables are floats whenever they come from a DataFrame or have missing entries. Hence with `quality_method="agreement"` a unanimous label 2 is reported as class 0 with quality 0 (C96_best_quality_refuted), and calibration compares predictions with the wrong classes (C98_floats_refuted).
* The largest coarse temperature can never be selected (C98_last_refuted).
* One more vote for a class can lower its posterior under `best_quality` (C67_best_quality_refuted); with a tied maximum the majority vote is kept even if far below the maximum (C70_tie_refuted); majority vote raises when every example is tied (C35_all_tied_raises).
* *Observed*: a one-model ensemble with unlabeled data and verbose=True raises; ensemble functions modify the caller's arrays.

**Object detection**
* Average per-class counts are divided by thresholds times classes (summary.py:587, C71_average_refuted).
* *Observed*: an image score may exceed 1 by 1e-100; a label class outside the predicted classes raises KeyError.

**Datalab**
* Issue columns are selected by substring (C78_substring_refuted); the caller's nested issue_types are modified and win over later inputs (C45_modified_refuted); a malformed custom check removes its previous summary row (C44_malformed_check_refuted).
* A forced save truncates the old object first (C46_forced_crash_refuted); an unlabelled Datalab saved with data cannot be reloaded with it (C46_unlabelled_reload_refuted).
* The underperforming group depends on the visiting order (C43_worst_cluster_refuted); a stored graph is reused for other features (C75_other_features_refuted); the order of corrected neighbours depends on the unstable sort (C74_order_refuted).
* Spurious correlations are compared with argmax instead of max of the label counts (spurious_correlation.py:50, C80_baseline_refuted).
* Image checks duplicate summary rows, keep stale columns and do not count in the health score (C81_*_refuted).
* Label probabilities from features can become negative and make the label check raise ValueError when there are more than k exact copies with another class (C77_negative_probability_refuted, C90_copies_fail).
* The non-IID normaliser depends on the reading direction (C84_direction_refuted); `metric='minkowski'` always fails in the outlier check (C85_outcome).
* The outlier rule of IssueFinder for missing labels never applies (C79_outlier_without_labels_refuted).

**CleanLearning and regression**
* The confident joint of the first dataset is reused for all later ones (C49_other_dataset_refuted, C49_later_calls); a passed noise matrix is overridden or ignored (C49_passed_noise_refuted, C48_passed_noise_refuted); `save_space` makes later searches raise (C49_save_space_refuted).
* An integer `is_label_issue` column trains on copies of two examples (C48_integer_flags_refuted); list labels silently get weights one (C48_list_weights_refuted).
* Regression: exactly predicted examples can be flagged and model_kwargs are ignored in the search (C52_exact_example_refuted, C52_model_kwargs_refuted); `outre` gives an exact prediction the lowest score when the others share a bias (C88_exact_refuted); the residual flag depends on the unit of the label (C89_example_units).

**Noise generation and data valuation**
* The two-class branch of generate_noise_matrix_from_trace does not check the trace, and ignores the bounds (C94_two_range_refuted, C94_two_bounds_refuted).
* *Observed*: the docstring of data_shapley_knn contradicts the code; data valuation scores lie within 1/(2k) of 1/2 (C76_range).

**Out-of-distribution**
* Scores against a precomputed index depend on the first batch scored (C58_score_independent_of_history_refuted).

**Ensembles and co-teaching**
* C99: weighting by log_loss_search raises ValueError as soon as a class has no label; the other weightings do not.
* C100: `loss_coteaching` divides an already averaged loss by the number of remembered examples again (and by zero when nothing is
  remembered).
* C101: for exponents below one the forgotten fraction overshoots the forget rate and then drops; more gradual epochs than epochs is a
  ValueError.
* C102: `train` divides by zero when the data fit into a single batch of fewer than 16 examples; its accuracy weighs batches equally.

**Validation, reports, summaries, invariance, regression**
* C103: on data with the single class 0 four filters answer and three raise ValueError; on data with any other single class all raise.
* C106: `display_issues(top=0)` prints every issue; an empty list of issues raises IndexError; `span_classification.display_issues` passes the
  span probabilities unconverted, so the class printed as predicted is always 0 and `exclude` is matched against it.
* C107: `class_label_distribution` rounds every share to two decimals, so many rare classes all get 0.0; a class without a name raises
  KeyError there but is silently dropped by `bounding_box_size_distribution`.
* C108: `format_multiannotator_labels` leaves a class called "nan" and fractional labels unformatted.
* C110: `Datalab.get_info()` without a name returns the live dictionary, so editing it changes the Datalab; with a name a shallow copy.
* C112: `report(verbosity=3)` raises TypeError when an underperforming group is reported (`info["clustering"]` holds an array, which
  json.dumps rejects); `verbosity=4` raises ValueError when any reported check has three levels, although label, outlier and
  data_valuation have four.  `truncate` never ends on empty and ragged lists.
* C111: `IdentifierColumnIssueManager` always reports zero issues and is not registered, so identifier columns never appear in the
  default report.
* C114: with tied self-confidences `prune_by_class` flags different examples when the rows are shuffled.
* C115: `prune_by_class` and `prune_by_noise_rate` may flag different examples after renumbering the classes, also without ties in
  pred_probs (ties of fractional parts in the rounding of the counts are broken by position).
* C116: `prune_by_class` on a data set concatenated with itself may flag an example and not its copy.
* C117: targets in an (N, 1) array pass every check and get issues, but `fit` then raises ValueError comparing `given_label` with the column; features in a list fail with TypeError after the stored table was replaced; integer flags train on copies of the last rows; `k` is not reset when flags are supplied.
* C118: `color_sentence` colours the full stop inside `U.S` and not the one that is the token; a token containing a backslash raises `re.error` or is shown as other text, because the word is used as a replacement template; `process_token(token, [])` raises KeyError.
* C119: `{"image_issue_types": {"near_duplicates": {}}}` raises KeyError after the ordinary checks were run (only the seven default names may come without parameters); giving one parameter of `low_information` drops the default threshold 0.15; correlations of an earlier audit stay in the info when the new computation fails; asking for correlations without labels silently does nothing.
* C120: an instance of a subclass of dict, list, str, DataFrame or Dataset passes the type check and then fails with KeyError; the name of a hub dataset with several splits fails with TypeError (unhashable) instead of the DatasetDictError made for it; a missing label column raises KeyError, its ValueError is unreachable; a ClassLabel code of -1 (no label) is kept as a label; a multi-label dataset with different numbers of labels per example is not equal to itself; a copy of a dataset is never equal and has another hash, so `Datalab.load(path, data=...)` after a restart refuses the unchanged data.
* C121: for a dataset without rows print says that no checks were run whatever was run.
* C122: (a) an outlier check that falls back to pred_probs and names a metric overwrites knn_metric although the stored graph has another metric; later checks naming that metric then use the wrong distances. (b) a non_iid check without features that names another metric stores a graph of pred_probs, contrary to the note in noniid.py:152-155. (c) since set_knn_graph leaves metric at None when it reuses or is given a graph, `self.metric != knn_metric` holds and a smaller graph given later replaces a larger stored one while the old metric stays. (d) the outlier check averages over all neighbours of the stored graph, not over its k, so its flags depend on whether a check with a larger k ran before.
* C123: `num_label_issues(multi_label=True)` ignores `estimation_method` and accepts unknown methods (C123_method_refuted). `_calibrate_confident_joint_multilabel` takes the number of classes from the classes that occur: a class nobody has shortens the result and pairs matrices with the wrong classes (C123_calibrated_refuted, C123_calibrated_pairing_refuted), and with fewer matrices than classes part of the result is uninitialised memory (C123_uninitialised_refuted). `find_predicted_neq_given(multi_label=True)` raises whenever a class is on all or on none of the examples, unlike find_label_issues, which accepts a class nobody has.
* C124: with pulearning set, the filters prune_by_class, confident_learning, predicted_neq_given and low_* as well as low_memory mode still flag examples of the class declared free of errors (C124_other_filters_refuted, C124_low_memory_refuted).
* C124: classification.py line 903 writes the probability 1 into the confident joint, which holds counts: with three examples the class is left with count 1 (C124_count_refuted), and the next call on the same object and data estimates different class frequencies (C124_second_call_refuted).
* C125: predict_proba(idx) with as many indices as the data have examples ignores idx: a permutation of all training indices gets its rows in the order of the data (C125_reordered_refuted). The indices 0..549 of training digits are answered for the 550 test digits (C125_first_examples_refuted).
* C126: get_params omits seed and loader, so sklearn.clone of CNN(loader='test', seed=5) trains and predicts on the training data with seed 1 (C126_clone_refuted). Sample weights are turned into class weights by the first example of each class (C126_own_weights_refuted) and make training fail when a class is missing from the labels (C126_missing_class_refuted).
* C127: append_extra_datapoint uses np.vstack([X, X[i]]), which raises for every array of images (three or more axes) and for one-dimensional arrays, so cross-validation of such data fails as soon as a class is missing from a fold (C127_images_refuted, C127_vector_refuted).
* C127: csr_vstack concatenates the whole data arrays but offsets by nnz: a matrix whose arrays are longer than nnz gets wrong rows (C127_spare_room_refuted).
* C128: the documented `health_summary_parameters` of the label check are unusable: with a confident joint health_summary raises ValueError (it counts examples from labels only), with a joint and num_examples it fails because the joint is not handed to the overall score, and without class_names the check raises KeyError; in each case the label check is reported as failed. In the same summary row the score counts confident-learning errors while the number counts flags of the chosen filter, so with the default filter a row may say 0 issues and score 6/7.
* C129: `get_active_learning_scores_ensemble` and `get_label_quality_multiannotator_ensemble(calibrate_probs=True)` overwrite the probabilities of the caller (`C129_untouched_refuted`), twice when the same array is passed for labelled and unlabelled examples (`C129_same_array_refuted`), and also when the call then raises (`C129_failed_call_refuted`). One model cannot score unlabelled examples (`C129_one_model`), and with disagreeing models a score can fall below 1/K (`C129_uniform_refuted`).
* C130: estimate_py_noise_matrices_and_cv_pred_proba (and the version taking pred_probs) can return a noise matrix with an all-zero column: calibration rounds the forced count of one on the diagonal to zero when the examples of a class are confidently counted into other classes. In the same situation py_method=cnt and py_method=marginal disagree about the class.
* C131: predicting every true class correctly does not suffice for the default filter; a wrong label is missed when its true class's threshold is pulled up by wrongly labelled examples of another class (C131_row_maximum_refuted). prune_by_class can miss wrong labels that the default filter finds (C131_prune_by_class_refuted).
* C133: a second round of the default filter on the cleaned data, with the same predictions, can flag examples kept by the first round when there are three or more classes; with two classes it cannot.
* C135: the filters low_self_confidence and low_normalized_margin can drop an issue when another example gets worse (they return a number of lowest scores).
* C136: a class nobody has as label changes the issues once it is likelier than a given label; the default filter then flags the example as an issue although no class that occurs is likelier than the label (`C136_likelier_refuted`).
* C137: swap scores are bounded from below by the least non-zero similarity of a given and a predicted box anywhere in the data set. If every image has one object and the boxes are predicted where they were drawn, this bound is 1 and no swapped label is flagged (`C137_swap_missed_refuted`).
* C138: the batched search takes as many lowest-scored examples as were counted; among examples with equal scores the order of the data decides which are flagged (`C138_batched_tied_refuted`).
* C139: sklearn's cross_val_predict passes each column of a 2d label matrix through a LabelEncoder, which turns a column of ones into a column of zeros. For a class annotated on every example the classifier is therefore told that no example has it, and predicts probability 0 (`C139_told`, `C139_always_present_refuted`); all these annotations then get the lowest scores.
* C140: with filter_by="low_self_confidence" (or "low_normalized_margin") Datalab's multi-label label check can flag an example whose predicted labels are its given labels, and leave out the only one where they differ (C140_low_refuted). Misspelled keyword arguments are ignored without a warning (C140_keywords).
* C141: with ties that reach np.random.choice the consensus label of an example depends on the position of its row, since the generator is consumed in row order (C141_draw_order_refuted).
* C142: rank_classes_by_multilabel_quality(confident_joint=...) ignores the confident joint (it forwards `joint`, dataset.py:140-142), so multilabel_health_summary with a confident joint returns a class table that contradicts its other parts; the documented denominator of 'Label Noise' (examples labelled as class k) is not the one used (all examples).
* C144: the group flagged by the underperforming group check can depend on the order of the examples: the loop over `set(cluster_ids)` compares the confidence of a cluster with the *ratio* of the current worst one (C43), so the visiting order matters, and Python visits colliding ids (for example 0 and 8) in the order of insertion (`C144_flagged_group_refuted`).
* C145: with two predictions of equal probability the images flagged by object_detection find_label_issues depend on the order of the images (average precision 0.5 or 0.25 in C145_tied_probabilities_refuted), because _get_average_precision sorts the predictions of all images by probability and true and false positives of equal probability are counted in image order.
* C146: data whose typical distances are below 1e-6 are all reported as near duplicates of each other (the floor of the median distance is absolute), though the same data in a smaller unit are not (C146_tiny_units_refuted).
* C148: find_issues called twice with the same arguments can flag different outliers, because a check with few neighbours uses the larger graph that a later check stored in the first call; info reports the k asked for, not the one used (C148_more_neighbors_refuted, C148_order_refuted).
* C149: a feature column of zeros and ones is reported as an identifier column, although the documentation speaks of consecutive integers numbering the examples (`C149_binary_refuted`); a list of rows is read as a list of columns, with flags for another number of examples (`C149_list_of_rows_refuted`).
* C150: info['underperforming_group']['clustering']['params'] is always {'metric': 'precomputed'}, even when clustering_kwargs such as eps were used, so the recorded parameters do not reproduce the clustering (`C150_recorded_params_refuted`).
* C151: `np.random.choice` among tied labels, `np.argmax` of a row of probabilities with two maxima (model weight) and the first of several equally bad labels (worst class) depend on how the classes are numbered (`C151_*_refuted`).
* C152: `ClassImbalanceIssueManager` counts with `np.bincount`, which stops at the largest label present. A class without examples is the rarest class if its number is below the largest label and is invisible otherwise, so renumbering the classes changes the report (`C152_imbalance_absent_refuted`). When classes tie for rarest, only the one with the lowest number is flagged (`C152_imbalance_tied_refuted`).
* C152: segmentation with `downsample > 1` averages the label numbers of a block and rounds: a block with pixels of class 0 and class 2 becomes class 1 (`C152_downsampled_refuted`).
* C154: if CleanVision raises after it has produced score columns, the correlations are computed from those columns but they are never copied to the table of issues, so `lab.report()` raises KeyError (`C154_failed_refuted`).
* C154: `if not self.threshold` treats a threshold of 0 as "not calculated"; with the baseline of C80 scores can be negative, and nothing is reported (`C154_zero_refuted`).
* C154: `replace('_score', '')` removes every occurrence, so `my_score` and `my_score_score` are printed under one name (`C154_same_name_refuted`).
* C155: pixels with equal label probabilities are flagged by position (`C155_tied_refuted`), and downsampling mixes the pixels of a square (`C155_downsampled_refuted`); both are inherent to the method, users who tile images should know.
* C157: a multi-label data set accepted as a whole can be rejected in parts (ValueError when every example of a part has every class); regression scores reject a single example; an overlooked box's score depends on which other images are scored with it.
* C158: `calibrate` has no effect; the pruning filters (the default among them) raise as soon as one class is never predicted or never given.
* C159: copies of an example whose vote is tied beyond all tie-breaks can get different consensus labels, since each draws its own random number (`C159_draw_refuted`).
* C160: the note about rows with some missing values is shown only if some other row lacks all values (or with show_all_issues); otherwise `report()` says that no issues were found (`C160_silent_refuted`).
* C161: a data-valuation score below 0.5 need not indicate a negative contribution: with four examples and k = 2 the example with the lowest score (7/16) has the largest exact Shapley value (1/12) (`C161_sign_refuted`, `C161_order_refuted`).
* C163: the documentation of LabelInspector says its estimates may differ from num_label_issues / find_label_issues by 1; with three classes the difference can be larger: an example whose most likely class is below its threshold is never counted, although the standard count includes it (C163_three_classes_refuted, 0 against 3 of 9 examples), a class without labelled examples makes the batched count larger (C163_missing_class_refuted), and calibrated counts differ too (C163_calibrated_refuted).
* C164: `num_label_issues` with 'off_diagonal_calibrated' can return less than with 'off_diagonal' although its documentation says "always equal to or greater": when both examples of a class are confidently another class, the confident joint row is [1, 2] (the diagonal is raised to 1) and is calibrated to [1, 1], so 2 issues become 1.
* C166: with softmin pooling (the default for segmentation images and the boxes of an image, an option for sentences and multi-label examples) raising the score of one item lowers the overall score when the item is more than a temperature above it: token scores [0.5, 0.7] pool to more than [0.5, 1.0]. Two sentences that differ only in one better token can be ranked the wrong way round.
* C167: the invariance fails for examples that are confident for two classes: they are counted by the larger raw probability, so shifting the probabilities of class 0 up by 0.2 and of class 1 down by 0.2 turns the joint [[1,2],[0,2]] into [[2,0],[2,1]].
* C168: over-sampling changes what prune_by_class and prune_by_noise_rate find: they leave at least one example in every class, so a class whose only example is mislabelled has no issue, but with four copies of that example three are flagged and the fourth, identical one is not.
* C170: when the only example of a class is replaced, the threshold of the class jumps to 2 (a value no probability reaches), so the bound does not hold there.
* C171: `value_counts(x, num_classes=K)` checks for labels of K or more only if the number of different labels is not K; `[0, 2]` with K = 2 gives `[1, 1]`, the count of class 2 in place of class 1. `get_unique_classes` documents labels of the form `[1, [1, 2], [0]]`, but raises TypeError for every such list.
* C172: a probability gap of exactly 1e-6 is an issue for the multi-label filter and not for the multi-class filter when the given label is class 0 (C172_gap_refuted); exclusive classes with K >= 3 are treated differently (C172_three_refuted).
* C173: the input check for multi-label data accepts negative and fractional classes (C173_multilabel_refuted), raises AssertionError instead of TypeError/ValueError for labels that are not a list of lists (C173_multilabel_assertion), and ignores the features when predictions are given, even if their length is wrong (C173_features_refuted).
* C174: aggregator_kwargs={'method': 'exponential_moving_average'} uses the weight 2/(K+1) instead of the documented default 0.8, and misspelt entries are silently ignored (C174_weight_refuted).
* C175: the report takes the first `verbosity + 1` entries of the dictionary of levels, not the levels up to `verbosity`: {1: [a], 2: [b]} shows b at verbosity 1; {1: [a], 0: [b]} shows only a at verbosity 0. Levels inherited from an abstract class are not validated. A subclass of a check that keeps its issue_name is refused with TypeError.
* C176: low_self_confidence distributes the number of issues over both data sets by score, so that combining unrelated data sets changes which examples are flagged.
* C177: with adjust_pred_probs=True (the default) an example that carries the class the model predicts can have a label quality below its out-of-distribution score, because both use probabilities shifted by class thresholds (C177_adjusted_argmax_refuted); labels of one class make fit_score raise ValueError while get_label_quality_scores accepts them (C177_one_class).
* C178: with the default consensus_method='best_quality' the caution may say that the number of classes has been reduced when it has not (the model replaces an annotated class by one nobody annotated), and may name a class that is the only label an example was given (C178_best_quality_refuted; the square root in the example is exact).
* C179: `find_label_issues(filter_by='prune_by_noise_rate', confident_joint=cj)` takes the supplied matrix as absolute counts without calibrating it, whereas `num_label_issues(estimation_method='off_diagonal_custom', confident_joint=cj)` and `estimate_joint` calibrate it first. The same matrix times ten leaves the estimated number of issues at 2 and raises the number of flagged examples from 2 to 3.
* C180: multiplying the row of one given label by a constant leaves the calibrated confident joint and `estimate_joint` unchanged but changes the prior (`py_method='cnt'`) and the noise matrix of `estimate_latent`, which does not calibrate its argument: [[2,1],[0,2]] gives prior 2/5, [[6,3],[0,2]] gives 2/7.
* C181: `overall_label_health_score(labels, pred_probs)` and the same function given the (confident) joint estimated from these data return different scores (5/6 and 2/3 in the example): one counts the confident off-diagonal examples, the other takes the trace of the calibrated joint.
* C182: supplying `compute_confident_joint(..., calibrate=False)` to `find_label_issues(filter_by='prune_by_noise_rate')` flags other examples (1 instead of 2) than the default, since a supplied matrix is not calibrated.
* C184: the comment "Equivalently: py = (true_labels_class_counts / labels_class_counts) * ps" (latent_algebra.py:240) fails for a confident joint with a zero on the diagonal: [[0, 2], [1, 3]] with labels 0,0,1,1,1,1 gives class 0 a prior below 1e-5 instead of 1/6 before normalizing.
* C185: `estimate_pu_f1` is not bounded by 1: one labelled example out of four, perfectly predicted, gives 2 (the F1 score is 1). `compress_int_array([3, 40000], 10)` silently gives [3, -25536].
* C186: `print_square_matrix` of a one-dimensional array with two or more numbers raises IndexError after the first row (K is taken before the array is made two-dimensional, util.py:340-343).

**Observed while reading, no theorem**
* `Label.is_available` is False for every regression Datalab (the label map is empty).
* CleanLearning with `pulearning` edits a caller's confident_joint or noise matrix in place.
* Object detection: prediction lists shorter than the labels end in IndexError; the summaries zip without a length check.
* A supplied unfitted knn object is fitted on the data being scored.
* `ClassLabel` features of a Hugging Face dataset bypass the remapping of labels.
* Segmentation `common_label_issues(exclude=...)` leaves out only predictions of the excluded classes.
* `identifier_column` does not compare its number of rows with the dataset's.
* `set_knn_graph` with a supplied graph and a conflicting metric recomputes the graph.
* Regression `score` drops the sample weights without a message when the model's `score` has no such parameter.
* `get_report` raises when the summary contains a check not registered for the task.
* `ModelOutput.validate()` (datalab/internal/model_outputs.py) is never called.
* An exception in the constructor of one issue manager aborts the whole audit; only `find_issues` of a manager is guarded.
* `rank_classes_by_multilabel_quality` hands its `joint` argument on as a confident joint.
* A forced second save is needed after a crash during an unforced first save: the folder exists already.
* `LabelIssueManager` overwrites the `confident_joint` of its info.
* The correlation report of an image Datalab is dropped silently when its threshold is 0.
* The docstring of get_confident_thresholds(multi_label=True) gives the shape (K, 2, 2); the result is K x 2.
* Re-running the outlier check on a stored graph skips its precision correction, since the metric is None then.

## Axioms reported by `Print Assumptions`

| mark | axioms (all from the Coq standard library) | theorems |
|---|---|---|
| (none) | Closed under the global context | 785 |
| A1 | ClassicalDedekindReals.sig_forall_dec, ClassicalDedekindReals.sig_not_dec, Classical_Prop.classic, FunctionalExtensionality.functional_extensionality_dep | 89 |
| A2 | ClassicalDedekindReals.sig_forall_dec, ClassicalDedekindReals.sig_not_dec, FunctionalExtensionality.functional_extensionality_dep | 10 |
| A3 | ClassicalDedekindReals.sig_forall_dec, FunctionalExtensionality.functional_extensionality_dep | 3 |
