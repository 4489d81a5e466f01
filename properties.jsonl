{"id": "C01", "title": "Sum-preserving rounding", "statement": "Rounding a vector of reals to integers while preserving its sum always terminates, returns a vector of the same length whose sum is the (half-to-even) rounding of the original sum, and moves every entry by strictly less than one; rounding a matrix this way preserves every row total.", "quantifier": "every finite vector/matrix of numbers, every way of breaking ties in the internal sort", "why_tests_cant": "The adjustment runs in a while-loop whose termination and whose amount of change depend on the accumulated rounding error of arbitrarily many entries; no finite set of vectors covers it.", "anchors": ["cleanlab/internal/util.py:round_preserving_sum", "cleanlab/internal/util.py:round_preserving_row_totals"]}
{"id": "C02", "title": "Calibrated confident joint has the label counts as row sums", "statement": "For any non-negative confident joint whose rows are non-empty for the classes that occur in the labels, calibrating it to a set of labels yields a non-negative integer matrix whose row k sums exactly to the number of examples labelled k and whose total is exactly the number of examples, including classes that never occur in the labels.", "quantifier": "every K, every confident joint with positive row sums for the classes that occur, every label array over the K classes, every tie order", "why_tests_cant": "Row-wise integer rounding after two floating normalisations has to hit the label counts exactly for all matrices; tests only check a few matrices with tolerance.", "anchors": ["cleanlab/count.py:calibrate_confident_joint", "cleanlab/internal/util.py:value_counts", "cleanlab/internal/util.py:round_preserving_row_totals"]}
{"id": "C03", "title": "Estimated joint is a probability distribution with the observed label marginal", "statement": "The estimated joint distribution of given and true labels has non-negative entries, sums to one, and its marginal over given labels is exactly the empirical class frequency of the labels.", "quantifier": "every dataset (labels, predicted probabilities) and every supplied confident joint with positive rows for the classes that occur", "why_tests_cant": "Universal over all datasets; a wrong normalisation can cancel on symmetric test data.", "anchors": ["cleanlab/count.py:estimate_joint", "cleanlab/count.py:calibrate_confident_joint"]}
{"id": "C04", "title": "Confident joint counts each example by the documented rule", "statement": "Cell (i,j), i != j, of the uncalibrated confident joint is the number of examples labelled i whose predicted probability reaches the threshold of class j when j is the only class reached, or is the most likely class when several are reached; each example is counted in at most one cell; diagonal cells are that count but at least 1; and the returned off-diagonal indices are exactly, in increasing order, the examples counted off the diagonal.", "quantifier": "every labels/predicted-probability matrix/threshold vector of every size", "why_tests_cant": "The vectorised masking/argmax/confusion-matrix implementation must equal a per-example rule for every pattern of threshold crossings and ties.", "anchors": ["cleanlab/count.py:compute_confident_joint"]}
{"id": "C05", "title": "Confident thresholds are the class-wise mean self-confidence", "statement": "The threshold of a class present in the labels is the average predicted probability of that class over the examples given that label (never below 2e-6), it lies between the smallest and largest such probability, and no valid probability can reach the threshold of an absent class.", "quantifier": "every dataset and every class", "why_tests_cant": "Mean over data-dependent subsets, including absent classes; quantifies over all datasets.", "anchors": ["cleanlab/count.py:get_confident_thresholds"]}
{"id": "C06", "title": "num_label_issues agrees with the confident_learning filter", "statement": "The estimated number of label issues (default method) is exactly the number of examples flagged by find_label_issues(filter_by='confident_learning').", "quantifier": "every valid dataset", "why_tests_cant": "Relates the outputs of two entry points that compute the set separately (one calibrated, one not); equality must hold on all data.", "anchors": ["cleanlab/count.py:num_label_issues", "cleanlab/filter.py:find_label_issues", "cleanlab/count.py:_reduce_issues"]}
{"id": "C07", "title": "An example whose given label is (one of) the model's top predictions is never flagged", "statement": "For every filter_by method other than the two low_* methods and for every return form, an example whose given label attains the maximum predicted probability (or is within 1e-6 of it) is never reported; under predicted_neq_given the examples reported are exactly those whose label is more than the tolerance below the maximum.", "quantifier": "every valid dataset, every filter method, every confident joint/frac_noise/min_examples setting", "why_tests_cant": "Depends on exact interaction of argmax tie-breaking and the floating tolerance on all inputs.", "anchors": ["cleanlab/filter.py:find_label_issues", "cleanlab/count.py:_reduce_issues", "cleanlab/filter.py:find_predicted_neq_given"]}
{"id": "C08", "title": "filter_by='both' is the intersection of the two pruning methods", "statement": "The examples flagged with filter_by='both' are exactly the examples flagged by both prune_by_class and prune_by_noise_rate run on the same inputs.", "quantifier": "every valid dataset and settings", "why_tests_cant": "Holds as a set identity on all inputs, including after removal of confidently-correct examples.", "anchors": ["cleanlab/filter.py:find_label_issues"]}
{"id": "C09", "title": "Ranked output and mask output describe the same set", "statement": "With return_indices_ranked_by set, find_label_issues returns each flagged index exactly once and nothing else, ordered by non-decreasing label quality score.", "quantifier": "every dataset, every filter, every score, every (possibly unstable) sort", "why_tests_cant": "A permutation-plus-sortedness claim over all inputs and all tie orders.", "anchors": ["cleanlab/filter.py:find_label_issues", "cleanlab/rank.py:order_label_issues"]}
{"id": "C10", "title": "Parallelism does not change results", "statement": "Running the per-class pruning on any number of worker processes, with any chunk size and any interleaving of task completion, gives the same issues as running it sequentially.", "quantifier": "every number of workers, every schedule, every dataset", "why_tests_cant": "Quantifies over schedules; a test observes only the interleavings that happened.", "anchors": ["cleanlab/filter.py:find_label_issues", "cleanlab/filter.py:_prune_by_class", "cleanlab/filter.py:_prune_by_count"]}
{"id": "C11", "title": "prune_by_class flags exactly the lowest self-confidence examples of each class", "statement": "For a class with n >= 2 examples and planned number c of correct ones, prune_by_class marks exactly n-c examples of the class (0 if n-c is negative or n does not exceed min_examples_per_class), and no unmarked example of the class has a smaller predicted probability of its own label than a marked one.", "quantifier": "every class, dataset, prune-count matrix, tie order", "why_tests_cant": "Selection optimality over all inputs and sorts.", "anchors": ["cleanlab/filter.py:_prune_by_class"]}
{"id": "C12", "title": "prune_by_noise_rate flags the examples with the largest margins for each pair of classes", "statement": "For every given class k and other class j with prune count c>0, the c examples of class k with largest p(j)-p(k) are marked, every marked example is among those for some j, and the total marked in class k is at most the sum of the off-diagonal counts.", "quantifier": "every dataset, prune-count matrix, tie order", "why_tests_cant": "Union of data-dependent top-c selections over all inputs.", "anchors": ["cleanlab/filter.py:_prune_by_count"]}
{"id": "C13", "title": "min_examples_per_class keeps enough examples", "statement": "Pruning leaves at least min_examples_per_class examples of every class that has at least that many.", "quantifier": "every dataset, every min_examples_per_class, every confident joint", "why_tests_cant": "A lower bound over all confident joints including ones where clipping negative counts changes column sums.", "anchors": ["cleanlab/filter.py:_keep_at_least_n_per_class", "cleanlab/filter.py:_reduce_prune_counts", "cleanlab/filter.py:_prune_by_class", "cleanlab/filter.py:_prune_by_count"]}
{"id": "C14", "title": "low_self_confidence / low_normalized_margin flag exactly the estimated number of lowest-scoring examples", "statement": "With these filters exactly num_label_issues examples are flagged and every flagged example has a score no larger than every unflagged one.", "quantifier": "every valid dataset and tie order", "why_tests_cant": "Cardinality and optimality must hold for all score distributions including massive ties.", "anchors": ["cleanlab/filter.py:find_label_issues", "cleanlab/count.py:num_label_issues"]}
{"id": "C15", "title": "Label quality scores lie in [0,1] and are per-example", "statement": "self_confidence and normalized_margin scores lie in [0,1] for every valid probability row; self_confidence is the probability of the given label; normalized_margin is at least 1/2 exactly when the given label is at least as likely as every other class; without threshold adjustment the score of an example depends only on that example; with adjustment the adjusted rows are non-negative and sum to one, so scores are still in [0,1].", "quantifier": "every valid dataset with at least two classes", "why_tests_cant": "Range and locality claims over all real inputs.", "anchors": ["cleanlab/rank.py:get_label_quality_scores", "cleanlab/rank.py:get_normalized_margin_for_each_label", "cleanlab/internal/label_quality_utils.py:_subtract_confident_thresholds"]}
{"id": "C16", "title": "Ensemble label quality scores are weighted averages", "statement": "For uniform and accuracy weighting the ensemble score of each example is between the smallest and largest of its per-model scores, and with a single model (of non-zero accuracy) or identical models it equals that model's score.", "quantifier": "every ensemble size and dataset", "why_tests_cant": "Convexity for all inputs; accuracy weights are data-dependent and can sum to zero.", "anchors": ["cleanlab/rank.py:get_label_quality_ensemble_scores"]}
{"id": "C17", "title": "find_top_issues returns the lowest-scoring examples", "statement": "It returns min(top, n) distinct indices in non-decreasing order of score, and no other index has a strictly smaller score than a returned one.", "quantifier": "every score vector, every top, every sort", "why_tests_cant": "Universal selection property.", "anchors": ["cleanlab/rank.py:find_top_issues"]}
{"id": "C18", "title": "Latent estimates are probability objects", "statement": "The estimated noise matrix has non-negative entries with every column summing to one, the inverse noise matrix likewise, and the estimated prior over true labels is strictly positive and sums to one, for every confident joint with positive row and column sums, with or without the convergence iterations.", "quantifier": "every K, labels, confident joint, py_method in {cnt, marginal, marginal_ps}", "why_tests_cant": "Clipping and renormalisation composed many times; must hold for all matrices.", "anchors": ["cleanlab/count.py:estimate_latent", "cleanlab/count.py:_converge_estimates", "cleanlab/internal/util.py:clip_noise_rates", "cleanlab/internal/util.py:clip_values", "cleanlab/internal/latent_algebra.py:compute_py"]}
{"id": "C19", "title": "Latent algebra is Bayes-consistent", "statement": "Given the true class prior and noise matrix (columns summing to one, noise rates below the clip limit), the computed inverse noise matrix is exactly the Bayes posterior, converting it back returns the original noise matrix, and the py formulas recover the true prior (when every class has prior at least 1e-6).", "quantifier": "every K, prior and noise matrix", "why_tests_cant": "An algebraic identity over all stochastic matrices.", "anchors": ["cleanlab/internal/latent_algebra.py:compute_inv_noise_matrix", "cleanlab/internal/latent_algebra.py:compute_noise_matrix_from_inverse", "cleanlab/internal/latent_algebra.py:compute_py"]}
{"id": "C20", "title": "Making a class noise-free keeps a valid noise matrix", "statement": "Removing noise from a class yields a matrix whose columns still sum to one, in which no other class can be mislabelled as that class, and all other off-diagonal rates are unchanged.", "quantifier": "every K, class, column-stochastic matrix", "why_tests_cant": "Algebraic claim over all matrices.", "anchors": ["cleanlab/internal/util.py:remove_noise_from_class"]}
{"id": "C21", "title": "Batched thresholds do not depend on the batching", "statement": "After feeding a dataset to the streaming inspector in any sequence of batches, the stored threshold of each class seen is its mean self-confidence over all data (bounded below by 2e-6 per batch mean), equal to the non-batched thresholds whenever every batch mean is at least 2e-6; in that case the counts and the set of reported issues do not depend on the batches either (calibrated counting in worker processes on batches of ten thousand examples or more excepted, see C22).", "quantifier": "every dataset and every split into batches", "why_tests_cant": "Quantifies over all ways of splitting a stream.", "anchors": ["cleanlab/experimental/label_issues_batched.py:LabelInspector", "cleanlab/experimental/label_issues_batched.py:find_label_issues_batched"]}
{"id": "C22", "title": "Batched issue counting is schedule independent", "statement": "The number of issues counted by the streaming inspector is the same for every number of worker processes, every chunking of the batch and every completion order of the chunks.", "quantifier": "every dataset, chunking, completion order", "why_tests_cant": "Quantifies over schedules and chunk sizes (chunks only exceed one element for batches above ten thousand examples).", "anchors": ["cleanlab/experimental/label_issues_batched.py:LabelInspector._update_num_label_issues"]}
{"id": "C23", "title": "Multi-label format conversion round trip", "statement": "Converting integer-list labels to one-hot and back returns, for each example, the sorted set of its classes; converting a one-hot matrix to lists and back is the identity.", "quantifier": "every K, every list of label lists / every binary matrix", "why_tests_cant": "Round-trip law over all inputs including empty label sets.", "anchors": ["cleanlab/internal/multilabel_utils.py:onehot2int", "cleanlab/internal/multilabel_utils.py:int2onehot"]}
{"id": "C24", "title": "Label formatting is a bijection onto 0..K-1", "statement": "Formatting arbitrary labels yields integers in 0..K-1 with every value used, where K is the number of distinct labels; two examples get the same integer exactly when their labels are equal; the returned map inverts the encoding; order of labels is preserved.", "quantifier": "every label list over any totally ordered label type", "why_tests_cant": "Bijection law over all inputs.", "anchors": ["cleanlab/internal/util.py:format_labels", "cleanlab/datalab/internal/data.py:MultiClass._extract_labels"]}
{"id": "C25", "title": "Random noise-matrix helper respects its constraints", "statement": "Distributing N (fewer than 500000) balls into K bins with feasible bounds terminates and returns K bins, each between the requested minimum and maximum, summing to N or, when the bins cannot hold N balls, to K times the maximum; the probability variant terminates and returns n non-negative numbers that sum exactly to m and lie within the requested bounds up to the documented 1e-6 tolerance; both for every stream of random numbers.", "quantifier": "every N,K,bounds and every random stream", "why_tests_cant": "Quantifies over all random streams.", "anchors": ["cleanlab/benchmarking/noise_generation.py:randomly_distribute_N_balls_into_K_bins", "cleanlab/benchmarking/noise_generation.py:generate_n_rand_probabilities_that_sum_to_m"]}
{"id": "C26", "title": "Synthetic noisy labels follow the noise matrix counts and keep alignment", "statement": "For true labels covering classes 0..K-1 and a noise matrix whose columns are non-negative and sum to at most one, the generated noisy labels have the same length as the true labels, are classes below K, and for every pair of distinct classes i and k exactly floor(noise_matrix[i][k] * #true label k) examples of true class k get label i (so all the others keep k), for every random choice.", "quantifier": "every true-label vector, noise matrix, random choice", "why_tests_cant": "Quantifies over all random selections.", "anchors": ["cleanlab/benchmarking/noise_generation.py:generate_noisy_labels"]}
{"id": "C27", "title": "Data Shapley scores lie in [0,1] and satisfy the KNN-Shapley recursion", "statement": "Every score returned for kNN-based data valuation lies in [0,1] (within 1/(2k) of 1/2), for every neighbour graph and labels; and when no neighbour is repeated each score is the closed-form KNN-Shapley value: an example gains when it agrees with the label of the examples whose k nearest neighbours include it and their k-th neighbour does not, and loses in the opposite case.", "quantifier": "every n, k, labels, neighbour graph", "why_tests_cant": "Alternating telescoping sums averaged over data-dependent neighbourhoods.", "anchors": ["cleanlab/data_valuation.py:_knn_shapley_score", "cleanlab/data_valuation.py:data_shapley_knn"]}
{"id": "C28", "title": "Outlier scores from distances lie in [0,1] and are order reversing", "statement": "Transforming average neighbour distances to scores gives values in [0,1], strictly decreasing in the distance, with score 1 exactly for distance 0, and a larger t lowers every score of a positive distance; the later correction of precision errors keeps scores in (0,1] and non-increasing in the distance; scores of the estimator from features, or from predicted probabilities with any of the three methods with or without adjustment, lie in [0,1].", "quantifier": "every vector of non-negative distances and positive parameters", "why_tests_cant": "Real-analytic claim over all inputs.", "anchors": ["cleanlab/internal/outlier.py:transform_distances_to_scores", "cleanlab/outlier.py:OutOfDistribution"]}
{"id": "C29", "title": "The OOD estimator enforces fit-before-score over every call history", "statement": "In any sequence of fit/score/fit_score calls on an out-of-distribution estimator, created without precomputed index or thresholds, score raises ValueError until a fit with the same kind of input has succeeded and afterwards returns exactly what an object with only the first successful such fit would return (for features: succeeds exactly when the column counts agree); later fit calls never replace the fitted state, score never changes it, and fit_score on a fitted object behaves like score. With adjust_pred_probs=False scoring predicted probabilities never depends on the history.", "quantifier": "every finite sequence of calls", "why_tests_cant": "Quantifies over call histories.", "anchors": ["cleanlab/outlier.py:OutOfDistribution.fit", "cleanlab/outlier.py:OutOfDistribution.score", "cleanlab/outlier.py:OutOfDistribution.fit_score"]}
{"id": "C30", "title": "Token-level issues map back to the right (sentence, token) positions", "statement": "Each flagged flat position is reported as the unique (sentence, token) pair at that position in the concatenated data; every reported pair is in range, no pair is reported twice, and sentences of length zero are skipped correctly.", "quantifier": "every nested list of labels, every flagged set", "why_tests_cant": "Bijection between flat and nested indices for all shapes, including empty sentences.", "anchors": ["cleanlab/token_classification/filter.py:find_label_issues", "cleanlab/token_classification/rank.py:get_label_quality_scores"]}
{"id": "C31", "title": "Token issues_from_scores returns exactly the low-scoring items in order", "statement": "With per-token scores it returns exactly the (sentence, token) pairs whose score is below the threshold, sorted by score; with sentence scores only, it returns exactly the sentences below the threshold sorted by score.", "quantifier": "every score structure and threshold", "why_tests_cant": "Boundary behaviour (all below, none below, empty) over all inputs.", "anchors": ["cleanlab/token_classification/rank.py:issues_from_scores"]}
{"id": "C32", "title": "Segmentation pixel indices round trip and batching invariance", "statement": "Pixel issue indices returned by segmentation are mapped to the (image, row, column) they came from, no flagged pixel has its given label equal to the model's argmax, and the result does not depend on the batch size.", "quantifier": "every image stack and every batch size", "why_tests_cant": "Index arithmetic over all shapes and all batch splits.", "anchors": ["cleanlab/segmentation/filter.py:find_label_issues", "cleanlab/segmentation/filter.py:_get_indexes_from_ranked_issues"]}
{"id": "C33", "title": "Segmentation issues_from_scores returns exactly the low-scoring images", "statement": "With image scores, issues_from_scores returns exactly the images whose score is below the threshold, in increasing order of score.", "quantifier": "every score vector and threshold", "why_tests_cant": "Off-by-one behaviour at the cutoff quantifies over all score vectors.", "anchors": ["cleanlab/segmentation/rank.py:issues_from_scores"]}
{"id": "C34", "title": "Exponential moving average aggregator is a monotone average", "statement": "The exponential-moving-average aggregation of per-class scores lies between the smallest and largest score, does not depend on the order of classes, is monotone in each score, gives the maximum for alpha 0 and the minimum for alpha 1, and rejects alpha outside [0,1].", "quantifier": "every score row of every length and every alpha", "why_tests_cant": "Universal law over real inputs and permutations.", "anchors": ["cleanlab/internal/multilabel_scorer.py:exponential_moving_average"]}
{"id": "C35", "title": "Majority vote returns a most frequent label", "statement": "For every example the consensus label is one given by the largest number of annotators; a strict majority winner is always returned regardless of predicted probabilities; ties are resolved first by larger predicted probability, then by the overall rarer class, then by annotator agreement, then at random among the remaining; and the vote always succeeds on a table in which at least one example has a clear winner.", "quantifier": "every annotation table (with missing entries) and every random choice", "why_tests_cant": "Four-stage tie-breaking over all tables.", "anchors": ["cleanlab/multiannotator.py:get_majority_vote_label"]}
{"id": "C36", "title": "CROWDLAB posterior is a probability distribution", "statement": "The posterior class probabilities of every example are non-negative and sum to one, annotator and model weights are strictly positive, and consensus quality scores lie in [0,1].", "quantifier": "every valid annotation table (some example labelled by several annotators), every prior, both consensus methods, one model or an ensemble", "why_tests_cant": "Composite weighted average over all tables.", "anchors": ["cleanlab/multiannotator.py:_get_post_pred_probs_and_weights", "cleanlab/multiannotator.py:_get_consensus_quality_score"]}
{"id": "C37", "title": "Active learning scores lie between 1/K and the consensus quality and favour labelling", "statement": "The active learning score of a labelled example lies between 1/K and its consensus quality; with equal consensus quality at least 1/K, adding an annotation by a further annotator never lowers the score; for unlabelled examples the score lies between 1/K and the top predicted probability and ranks examples by that probability.", "quantifier": "every annotation table and weights", "why_tests_cant": "Monotonicity over all weights.", "anchors": ["cleanlab/multiannotator.py:get_active_learning_scores"]}
{"id": "C38", "title": "IoU is a similarity", "statement": "Intersection-over-union of two well-formed boxes lies in [0,1], is symmetric, is (up to the 1e-6 regulariser) one for identical boxes and zero exactly when the boxes do not overlap.", "quantifier": "every pair of boxes", "why_tests_cant": "Case analysis over all relative box positions.", "anchors": ["cleanlab/object_detection/rank.py:_get_iou"]}
{"id": "C39", "title": "Detection matching is one-to-one", "statement": "In true/false-positive assignment every prediction is exactly one of TP and FP, each ground-truth box is matched by at most one prediction, every TP overlaps its box by at least the threshold, the number of unmatched boxes is total minus TP, and the per-class average precision lies in [0,1].", "quantifier": "every set of boxes, threshold and order of predictions", "why_tests_cant": "Greedy matching invariant by induction over predictions.", "anchors": ["cleanlab/object_detection/filter.py:_calculate_true_positives_false_positives", "cleanlab/object_detection/filter.py:_calculate_average_precision"]}
{"id": "C40", "title": "Exact-duplicate correction of the neighbour graph", "statement": "After correction every example's neighbour list has the same length as before, contains no self-reference when it had none, has no repeated neighbour, and every example with exact duplicates has min(k, number of duplicates) of them among its neighbours at distance zero; examples without duplicates are unchanged.", "quantifier": "every neighbour graph and duplicate structure", "why_tests_cant": "In-place array surgery with two cases over all duplicate-set sizes.", "anchors": ["cleanlab/internal/neighbor/knn_graph.py:correct_knn_distances_and_indices", "cleanlab/internal/neighbor/knn_graph.py:_correct_knn_distances_and_indices_with_exact_duplicate_sets_inplace"]}
{"id": "C41", "title": "Near-duplicate sets are symmetric and consistent with the flags", "statement": "In Datalab, if example j is in the near-duplicate set of i then i is in the set of j; an example is flagged as near duplicate exactly when its set is non-empty; flagged examples are those within the radius of some neighbour in the graph in either direction.", "quantifier": "every neighbour graph and radius", "why_tests_cant": "Symmetric closure over all graphs.", "anchors": ["cleanlab/datalab/internal/issue_manager/duplicate.py:NearDuplicateIssueManager._neighbors_within_radius"]}
{"id": "C42", "title": "Class imbalance flags only the rarest class", "statement": "Datalab's class-imbalance check flags examples only of a single rarest class (the smallest id in a tie), flags all of them or none, and flags them exactly when the class fraction is below threshold/K; every example of another class scores 1 and those of the rarest class score its fraction, also the summary score. If a class id below the largest one has no example, nothing is flagged.", "quantifier": "every label vector and threshold", "why_tests_cant": "Universal over datasets, including absent classes and ties.", "anchors": ["cleanlab/datalab/internal/issue_manager/imbalance.py:ClassImbalanceIssueManager"]}
{"id": "C43", "title": "The underperforming group reported is the worst cluster", "statement": "The cluster reported as underperforming has the lowest ratio of cluster performance to overall performance, and it is reported whenever that lowest ratio is below the threshold.", "quantifier": "every clustering, labels, predicted probabilities and cluster visiting order", "why_tests_cant": "Depends on the order in which clusters are visited and on comparing different quantities; tests use at most a few clusters.", "anchors": ["cleanlab/datalab/internal/issue_manager/underperforming_group.py:UnderperformingGroupIssueManager.get_underperforming_clusters"]}
{"id": "C44", "title": "Datalab's tables stay consistent over every history of checks", "statement": "After any sequence of issue searches, in which any check may raise and every other check yields a table with its flag and score column, the summary has at most one row per issue type, each row's count equals the number of True entries in that issue's column, row, columns and info reflect the latest successful run of that check, a check that raises has the same effect as not requesting it, and the overall health score is the mean of the summary scores.", "quantifier": "every finite history of find_issues calls with arbitrary succeeding/failing checks", "why_tests_cant": "Quantifies over call histories and failure points.", "anchors": ["cleanlab/datalab/internal/data_issues.py:DataIssues", "cleanlab/datalab/internal/issue_finder.py:IssueFinder.find_issues"]}
{"id": "C45", "title": "find_issues does not modify the caller's issue_types argument", "statement": "Calling find_issues leaves the dictionary passed as issue_types (including nested dictionaries) unchanged, so that reusing it with other features behaves like a fresh call.", "quantifier": "every history of calls that share an issue_types object", "why_tests_cant": "Aliasing is observable only across call histories.", "anchors": ["cleanlab/datalab/internal/issue_finder.py:IssueFinder._set_issue_types", "cleanlab/datalab/internal/issue_finder.py:IssueFinder._check_missing_args"]}
{"id": "C46", "title": "Saving and loading a Datalab", "statement": "save without force never alters an existing path; a completed save followed by load returns the saved object; a crash in the middle of a forced save leaves either the old or the new object loadable.", "quantifier": "every initial file-system state and every crash point", "why_tests_cant": "Quantifies over crash points.", "anchors": ["cleanlab/datalab/internal/serialize.py:_Serializer"]}
{"id": "C47", "title": "Cross-validated predictions are out-of-sample and complete", "statement": "With any partition of the examples into folds, every example receives exactly one predicted row, produced by a model trained on data excluding that example; the only exception is an example lent to the training data of its own fold because its class does not occur elsewhere, whose row is certainty of its given label. In regression every kept example is predicted by the model of its own fold and every dropped example by the mean of all fold models, none of which saw it.", "quantifier": "every number of folds, every fold assignment", "why_tests_cant": "Holds for all fold assignments.", "anchors": ["cleanlab/count.py:estimate_confident_joint_and_cv_pred_proba", "cleanlab/regression/learn.py:CleanLearning._get_cv_predictions"]}
{"id": "C48", "title": "CleanLearning trains on exactly the unflagged data with aligned weights", "statement": "fit, given labels in an array and label issues as booleans or indices (or none, so that it searches itself), trains on exactly the examples not flagged, in order, each with its own label; a sample weight passed by the caller stays with its example, an estimated weight is the same function of the given label for every example, and removed examples get weight zero in the reported table; weights or label_issues that cannot fit the data are rejected.", "quantifier": "every dataset, issue mask, index list and weight vector", "why_tests_cant": "Alignment of several filtered arrays over all masks.", "anchors": ["cleanlab/classification.py:CleanLearning.fit"]}
{"id": "C49", "title": "CleanLearning results do not depend on earlier datasets", "statement": "Calling find_label_issues on a second dataset gives the same result as calling it on a new CleanLearning object with the same settings.", "quantifier": "every history of calls on one object", "why_tests_cant": "State carried over between calls is visible only over histories.", "anchors": ["cleanlab/classification.py:CleanLearning.find_label_issues"]}
{"id": "C50", "title": "Class-level dataset summaries are consistent with the joint", "statement": "The per-class quality table lists every class once in non-decreasing order of quality with quality, noise and inverse noise in [0,1] and quality + noise = 1; the overlap table lists every unordered (or ordered) pair of distinct classes exactly once in non-increasing order and its probabilities sum to the off-diagonal mass of the joint; the overall health score from a joint is its trace.", "quantifier": "every joint distribution of every size", "why_tests_cant": "Sums over all matrices and sorts.", "anchors": ["cleanlab/dataset.py:rank_classes_by_label_quality", "cleanlab/dataset.py:find_overlapping_classes", "cleanlab/dataset.py:overall_label_health_score"]}
{"id": "C51", "title": "Null-value and identifier-column checks", "statement": "A row is flagged as null exactly when all its features are missing and its score is the fraction of present features; a column is an identifier column exactly when its values are a run of consecutive integers with at least two distinct values.", "quantifier": "every feature table", "why_tests_cant": "Exact characterisation over all tables.", "anchors": ["cleanlab/datalab/internal/issue_manager/null.py:NullIssueManager", "cleanlab/datalab/internal/issue_manager/identifier_column.py:IdentifierColumnIssueManager._is_sequential"]}
{"id": "C52", "title": "Regression label issues are the requested number of lowest-quality examples", "statement": "Regression CleanLearning flags exactly ceil(k*n) examples, those with lowest quality, and the searched k is a candidate with the best score among all candidates evaluated, or 0 when no candidate beats the initial model; the call completes for every search range within [0,1] unless the model is astronomically bad.", "quantifier": "every quality vector, every k, every search grid", "why_tests_cant": "Cardinality/optimality over all inputs.", "anchors": ["cleanlab/regression/learn.py:CleanLearning.find_label_issues", "cleanlab/regression/learn.py:CleanLearning._find_best_k"]}
{"id": "C53", "title": "Object-detection image issues: ranking and mask agree and scores lie in [0,1]", "statement": "The mask of find_label_issues marks exactly the images having a box whose score is at most a fifth of the mean average precision of its class; the ranked list holds exactly the marked images, lowest image score first; each image quality score lies in (0,1] up to the 1e-100 added before the logarithm and each box score in [0,1]; invalid aggregation weights are rejected.", "quantifier": "every set of labels and predictions", "why_tests_cant": "Composite of pooling, thresholds and NaN handling over all inputs.", "anchors": ["cleanlab/object_detection/filter.py:find_label_issues", "cleanlab/object_detection/rank.py:issues_from_scores"]}
{"id": "C54", "title": "Merging token classes and filtering sentences", "statement": "Merging class probabilities according to a map keeps each row a probability distribution (renormalised when some classes are dropped) and filtering sentences returns sentences and mask that select the same items.", "quantifier": "every map and probability matrix", "why_tests_cant": "Sums over arbitrary maps.", "anchors": ["cleanlab/internal/token_classification_utils.py:merge_probs", "cleanlab/internal/token_classification_utils.py:filter_sentence"]}
{"id": "C55", "title": "num_to_remove_per_class removes that many examples from each class", "statement": "With num_to_remove_per_class=[n0,...], find_label_issues prunes (before the final agreement filter) n_k examples among those with given label k.", "quantifier": "every dataset and per-class request", "why_tests_cant": "Which axis the request is applied to is only visible on asymmetric data.", "anchors": ["cleanlab/filter.py:find_label_issues"]}
{"id": "C56", "title": "confidence_weighted_entropy scores lie in [0,1] and rank certain labels above undecided ones", "statement": "For every probability row the confidence_weighted_entropy score lies in [0,1], the normalized entropy lies in [0,1], and an example whose label is predicted with probability 1 scores higher than one whose label is predicted with probability 1/2.", "quantifier": "every probability row with at least two classes and every label", "why_tests_cant": "An inequality about logarithms over all real distributions (Gibbs), and an ordering claim that fails only at the boundary of the simplex.", "anchors": ["cleanlab/rank.py:get_confidence_weighted_entropy_for_each_label", "cleanlab/internal/label_quality_utils.py:get_normalized_entropy"]}
{"id": "C57", "title": "True-label probabilities computed from noise matrices are distributions", "statement": "Each row of compute_pyx lies in [0,1], sums to one, keeps zero probabilities at zero, and equals the predicted probabilities when the noise matrices are the identity.", "quantifier": "every K, every matrix of predicted probabilities, every noise matrix and inverse with usable diagonal", "why_tests_cant": "Clipping and renormalisation over all real rows.", "anchors": ["cleanlab/internal/latent_algebra.py:compute_pyx"]}
{"id": "C58", "title": "Scores from a precomputed neighbour index do not depend on earlier batches", "statement": "An OutOfDistribution object created with params={'knn': fitted index} gives a batch the same scores whatever batches were scored before (the docs say no fit is needed before score).", "quantifier": "every fitted index, every history of score calls", "why_tests_cant": "Needs an interleaving of calls; each single call looks right.", "anchors": ["cleanlab/outlier.py:OutOfDistribution._get_ood_features_scores"]}
{"id": "C59", "title": "Token summaries count exactly the issues", "statement": "common_label_issues returns one row per token (per token/given/predicted swap when labels and predictions are supplied), whose count is the number of issues of that kind, excluding exactly the excluded swaps and rows of count zero, in decreasing order of count; filter_by_token returns exactly the issues whose token matches ignoring case.", "quantifier": "every issue list, text, label and probability structure, every exclude list", "why_tests_cant": "Counts are aggregated over dictionaries of matrices; tests check one text.", "anchors": ["cleanlab/token_classification/summary.py:common_label_issues", "cleanlab/token_classification/summary.py:filter_by_token"]}
{"id": "C60", "title": "Softmin sentence score lies between the minimum and the mean", "statement": "For every temperature, the softmin score of a non-empty sentence is at least its smallest token score and at most the mean of its token scores (hence in [0,1] when the token scores are).", "quantifier": "every score list of every length, every temperature", "why_tests_cant": "A statement about exponentials over all reals, lengths and temperatures.", "anchors": ["cleanlab/token_classification/rank.py:_softmin_sentence_score", "cleanlab/internal/numerics.py:softmax"]}
{"id": "C61", "title": "Segmentation quality scores mean what is documented", "statement": "The score of a pixel is the predicted probability of its given label; with method num_pixel_issues the score of an image is one minus the fraction of its pixels that find_label_issues flags, so it lies in [0,1]; with method softmin it lies between the lowest pixel score and the average pixel score.", "quantifier": "every image stack, batch size, job execution, downsampling factor and temperature", "why_tests_cant": "Quantifies over all arrays and real temperatures.", "anchors": ["cleanlab/segmentation/rank.py:get_label_quality_scores", "cleanlab/internal/multilabel_scorer.py:softmin"]}
{"id": "C62", "title": "Segmentation summaries count and filter exactly the flagged pixels", "statement": "common_label_issues has one row per (given, predicted) class pair with at least one flagged pixel whose predicted class is not excluded, carrying the exact number of such pixels, in decreasing order of that number and cut at top; filter_by_class keeps exactly the flagged pixels whose given or predicted class is the chosen one.", "quantifier": "every issue mask, label array, probability array, exclusion list and top", "why_tests_cant": "Counting over all pixels of arbitrary stacks.", "anchors": ["cleanlab/segmentation/summary.py:common_label_issues", "cleanlab/segmentation/summary.py:filter_by_class"]}
{"id": "C63", "title": "Multi-label issues are the union of the one-vs-rest issues", "statement": "An example is flagged exactly when some class is flagged in that class's one-vs-rest binary problem; outside the low-score filters a flagged example always has a class that is annotated but predicted below one half, or not annotated but predicted above (by more than the tolerance); the ranked output lists exactly the flagged examples by increasing overall score; the low-score filters flag as many examples as confident learning, those with the lowest scores.", "quantifier": "every multi-label dataset, filter and option set", "why_tests_cant": "Quantifies over all label lists and probability matrices; relates two outputs.", "anchors": ["cleanlab/multilabel_classification/filter.py:find_label_issues", "cleanlab/multilabel_classification/filter.py:find_multilabel_issues_per_class", "cleanlab/filter.py:_find_label_issues_multilabel"]}
{"id": "C64", "title": "Multi-label quality scores", "statement": "The score of a class for an example is the predicted probability of the annotated state of that class (both for self-confidence and normalized margin), the overall score aggregates the scores of that example only and lies between its smallest and largest class score and in [0,1]; datasets with fewer than two classes or only one annotation value are rejected with ValueError.", "quantifier": "every multi-label dataset and alpha in [0,1]", "why_tests_cant": "Universal bound and formula over all probability matrices.", "anchors": ["cleanlab/multilabel_classification/rank.py:get_label_quality_scores", "cleanlab/multilabel_classification/rank.py:get_label_quality_scores_per_class", "cleanlab/internal/multilabel_scorer.py:MultilabelScorer"]}
{"id": "C65", "title": "Multi-label dataset summaries are consistent with the issues found", "statement": "common_multilabel_issues has exactly one row per class and direction whose count is the number of examples flagged for that class with (without) the annotation and whose probability is that count over the number of examples, sorted; rank_classes_by_multilabel_quality has every class once, with those counts, sorted by quality; the health score is the fraction of unflagged examples.", "quantifier": "every multi-label dataset in which each class is present on some and absent from other examples", "why_tests_cant": "Cross-function consistency for all datasets.", "anchors": ["cleanlab/multilabel_classification/dataset.py:common_multilabel_issues", "cleanlab/multilabel_classification/dataset.py:rank_classes_by_multilabel_quality", "cleanlab/multilabel_classification/dataset.py:overall_multilabel_health_score"]}
{"id": "C66", "title": "Multi-label confident joint and removal counts are per class", "statement": "compute_confident_joint(multi_label=True) returns one 2x2 matrix of non-negative integers per class whose first row sums to the number of examples without and whose second row to the number with the class; num_to_remove_per_class limits the removals among the examples that have the class.", "quantifier": "every multi-label dataset", "why_tests_cant": "Exact totals for every dataset; meaning of an option.", "anchors": ["cleanlab/count.py:_compute_confident_joint_multi_label", "cleanlab/multilabel_classification/filter.py:find_multilabel_issues_per_class"]}
{"id": "C67", "title": "One more vote for a class never lowers its posterior", "statement": "If two examples have the same predicted probabilities and were labelled by the same annotators, and every annotator voting for class k on the first also votes for k on the second, then the posterior probability of k on the second is at least that on the first.", "quantifier": "every annotation table, prior and pair of examples", "why_tests_cant": "Relates the votes of two examples through weights estimated from the whole table.", "anchors": ["cleanlab/multiannotator.py:_get_post_pred_probs_and_weights", "cleanlab/multiannotator.py:get_label_quality_multiannotator"]}
{"id": "C68", "title": "Annotator statistics describe the annotator", "statement": "For every annotator the reported number of examples is the number they labelled, the agreement with the consensus is the fraction of those on which they gave the consensus label, the quality lies in [0,1], and the worst class is one they used with the lowest accuracy against the consensus, ties going to the more frequently used class and then to the class with the larger mean consensus quality.", "quantifier": "every annotation table and annotator", "why_tests_cant": "Ratios and tie-breaks over arbitrary label patterns.", "anchors": ["cleanlab/multiannotator.py:_get_annotator_stats", "cleanlab/multiannotator.py:_get_annotator_quality", "cleanlab/multiannotator.py:_get_single_annotator_worst_class"]}
{"id": "C69", "title": "Multi-annotator results do not depend on the order of the annotators", "statement": "Permuting the columns of the annotation table leaves consensus labels, qualities, agreements, posteriors and model weights unchanged and permutes the annotator weights accordingly (with the same random choices in ties).", "quantifier": "every annotation table, every permutation of its columns, one model or an ensemble", "why_tests_cant": "A relation between two runs, over all permutations.", "anchors": ["cleanlab/multiannotator.py:get_majority_vote_label", "cleanlab/multiannotator.py:get_label_quality_multiannotator", "cleanlab/multiannotator.py:get_label_quality_multiannotator_ensemble"]}
{"id": "C70", "title": "best_quality consensus is the most probable class", "statement": "With consensus_method best_quality, an example whose posterior (computed from the majority vote) has a unique maximum gets that class; otherwise the consensus is the majority vote.", "quantifier": "every annotation table and prior", "why_tests_cant": "Two-pass estimation over arbitrary tables.", "anchors": ["cleanlab/multiannotator.py:get_label_quality_multiannotator"]}
{"id": "C71", "title": "Average per-class detection counts", "statement": "get_average_per_class_confusion_matrix returns for each class the average over the IoU thresholds of the numbers of true positives, false positives and false negatives, so TP+FP is the number of predicted boxes and TP+FN the number of given boxes of the class.", "quantifier": "every set of labels and predictions with one array per class", "why_tests_cant": "Needs the matching invariants summed over images and thresholds.", "anchors": ["cleanlab/object_detection/summary.py:get_average_per_class_confusion_matrix"]}
{"id": "C72", "title": "Per-class detection metrics", "statement": "Precision, recall and F1 of calculate_per_class_metrics lie in [0,1], F1 never exceeds the larger of the two, all are zero when no box of the class is matched at any threshold and positive otherwise.", "quantifier": "every set of labels and predictions with one array per class", "why_tests_cant": "Ratios of counts over all inputs.", "anchors": ["cleanlab/object_detection/summary.py:calculate_per_class_metrics"]}
{"id": "C73", "title": "Meaning of the box scores", "statement": "An overlooked score exists exactly for confident predictions that overlap no given box and is the best similarity to a given box of its class, or the least similarity times one minus its confidence; a bad-location score is the best similarity over confident overlapping predictions of the same class and 1 when there is none; a swap score is 1 without a confident prediction of another class, never below the least similarity, the least similarity for given boxes in conflict with an almost identical box of another class, and otherwise one minus the best similarity to a confident prediction of another class.", "quantifier": "every set of labels and predictions, similarity weight and thresholds", "why_tests_cant": "Quantifies over all box configurations; tests fix a few images.", "anchors": ["cleanlab/object_detection/rank.py:compute_overlooked_box_scores", "cleanlab/object_detection/rank.py:compute_badloc_box_scores", "cleanlab/object_detection/rank.py:compute_swap_box_scores"]}
{"id": "C74", "title": "Duplicate correction keeps the nearest other neighbours in order", "statement": "After exact-duplicate correction the neighbours kept besides the duplicates are the nearest ones of the original list in their original order, so that distances that were in non-decreasing order stay so.", "quantifier": "every graph, duplicate structure and sorting routine permitted by np.argsort", "why_tests_cant": "np.argsort is stable only by accident for short rows; the order depends on the sorting routine.", "anchors": ["cleanlab/internal/neighbor/knn_graph.py:correct_knn_distances_and_indices_with_exact_duplicate_sets_inplace"]}
{"id": "C75", "title": "Which neighbour graph a Datalab check uses", "statement": "A created graph has exactly the requested number of neighbours (default min(10, N-1)) and k >= N raises; a stored graph is used only if it has at least the needed number of neighbours and no other metric is requested; a graph supplied by the user is used unless another metric is requested; the graph used reflects the features passed to this call.", "quantifier": "every combination of supplied graph, stored graph, metric, k and features, every search backend", "why_tests_cant": "Quantifies over combinations of state and arguments.", "anchors": ["cleanlab/datalab/internal/issue_manager/knn_graph_helpers.py:set_knn_graph", "cleanlab/internal/neighbor/knn_graph.py:create_knn_graph_and_index"]}
{"id": "C76", "title": "Data valuation scores count agreements among nearest neighbours", "statement": "The data valuation score of an example is 1/2 plus the average, over the examples that have it among their k nearest neighbours, of its label agreement minus that of their k-th neighbour, scaled by 1/(2k). So all scores lie in [1/2 - 1/(2k), 1/2 + 1/(2k)], an example that is nobody's neighbour scores 1/2, one that agrees with everybody whose neighbour it is scores at least 1/2, and an example below 1/2 disagrees with some example that has it as neighbour. The check flags exactly the scores below the threshold.", "quantifier": "every neighbour graph, label vector, k and threshold", "why_tests_cant": "A closed form of an in-place backward recurrence over all graphs; the tests check only the range [0,1].", "anchors": ["cleanlab/data_valuation.py:_knn_shapley_score", "cleanlab/data_valuation.py:data_shapley_knn", "cleanlab/datalab/internal/issue_manager/data_valuation.py:DataValuationIssueManager.find_issues"]}
{"id": "C77", "title": "Label check from features uses leave-one-out votes", "statement": "When only features are given, the predicted probabilities used by the label check are, for each example, the label fractions among its k nearest other examples, hence a probability distribution.", "quantifier": "every label vector and neighbour search result", "why_tests_cant": "Depends on each example being among its own neighbours, which fails only with many exact duplicates.", "anchors": ["cleanlab/datalab/internal/issue_manager/label.py:LabelIssueManager.find_issues"]}
{"id": "C78", "title": "get_issues(name) returns the columns of that check and no others", "statement": "After any history of checks, Datalab.get_issues(name) returns exactly the flag column and the score column of the latest successful run of the named check.", "quantifier": "every history of checks, every name", "why_tests_cant": "Depends on which other names were checked before, over all histories.", "anchors": ["cleanlab/datalab/internal/data_issues.py:DataIssues.get_issues"]}
{"id": "C79", "title": "Which checks Datalab runs and with which arguments", "statement": "Without issue_types, find_issues runs exactly the default checks of the task that can be computed from the given inputs, label-dependent ones only when labels are available; with issue_types, every named check runs (except label checks without labels and underperforming_group without predicted probabilities and a grouping), explicit arguments take precedence and missing ones are taken from the call.", "quantifier": "every task, every combination of inputs, every issue_types dictionary", "why_tests_cant": "All combinations of tasks, inputs, labels and user dictionaries.", "anchors": ["cleanlab/datalab/internal/issue_finder.py:IssueFinder.get_available_issue_types", "cleanlab/datalab/internal/issue_finder.py:IssueFinder._set_issue_types"]}
{"id": "C80", "title": "Spurious-correlation scores compare with the most frequent class", "statement": "The score of an image property lies in [0,1], does not increase with the accuracy reached from the property, and is relative to the accuracy of always predicting the most frequent class, so that renaming the classes does not matter.", "quantifier": "every label vector and accuracies", "why_tests_cant": "Holds for all label distributions and namings.", "anchors": ["cleanlab/datalab/internal/spurious_correlation.py:SpuriousCorrelations", "cleanlab/datalab/internal/spurious_correlation.py:relative_room_for_improvement"]}
{"id": "C81", "title": "Image checks keep Datalab's tables consistent", "statement": "After any sequence of calls with image checks the summary has at most one row per check, rows of other checks are unchanged, the row's count equals the number of True entries in its column, and the health score is the mean of the summary scores.", "quantifier": "every history of calls and every state of the Imagelab", "why_tests_cant": "State carried over between calls in two objects.", "anchors": ["cleanlab/datalab/internal/adapter/imagelab.py:ImagelabDataIssuesAdapter.collect_issues_from_imagelab"]}
{"id": "C82", "title": "The non-IID p-value compares the dataset with reordered copies of itself", "statement": "For every neighbour table in which each example has at least one neighbour, all of them other examples, Datalab's non-IID check finishes. Its dataset statistic lies in [0, 1] and differs from the exact Kolmogorov-Smirnov distance between the index distances of neighbours and the index distances of all pairs of examples by at most 2/N (it is below it by at most one over the number of neighbour links, above it by at most 2/N). Each of the statistics it is compared with is the statistic of the same dataset with its examples reordered by one of the drawn permutations.", "quantifier": "for all dataset sizes, neighbour tables, permutations, kernel density estimates and thresholds", "why_tests_cant": "Tests look at a few datasets and check a p-value against a number computed by the same code; they cannot show that the closed-form background distribution and the indexing of permuted neighbours mean what they should for every table.", "anchors": ["cleanlab/datalab/internal/issue_manager/noniid.py:186-195", "cleanlab/datalab/internal/issue_manager/noniid.py:267-299", "cleanlab/datalab/internal/issue_manager/noniid.py:426-446"]}
{"id": "C83", "title": "The non-IID check flags at most one example, the one with the lowest score", "statement": "For every neighbour table as in C82: an example is flagged if and only if the p-value is below the significance threshold and the example is the first with the lowest score, so at most one example is flagged and none when the p-value is not below the threshold. Every score lies in (1 - tanh 2, 1] and equals 1 - tanh(S / max(i, N - i)), where S sums, over the intervals between the sorted neighbour distances of example i (from 0 to N - 1), the absolute difference between the area under the distribution function of its neighbour distances and the area under that of its distances to all other examples.", "quantifier": "for all dataset sizes, neighbour tables, permutations, kernel density estimates and thresholds", "why_tests_cant": "The area under the background curve is a hand-derived piecewise formula with three regimes per example; tests compare a few rows with stored numbers.", "anchors": ["cleanlab/datalab/internal/issue_manager/noniid.py:197-208", "cleanlab/datalab/internal/issue_manager/noniid.py:301-415"]}
{"id": "C84", "title": "The non-IID check does not depend on the direction in which the data is read", "statement": "Reversing the order of a dataset leaves its non-IID statistic unchanged and reverses the scores and flags of its examples.", "quantifier": "for all dataset sizes and neighbour tables", "why_tests_cant": "Nobody runs a test suite on reversed datasets, and no finite number of datasets shows the symmetry.", "anchors": ["cleanlab/datalab/internal/issue_manager/noniid.py:301-415", "cleanlab/datalab/internal/issue_manager/noniid.py:426-446"]}
{"id": "C85", "title": "Datalab's distance-based outlier flags follow the interquartile rule and agree with the scores", "statement": "In the outlier check on a neighbour graph, an example is flagged if and only if the threshold is positive and its mean neighbour distance exceeds Q3 + (1/threshold - 1)(Q3 - Q1) of the mean distances (threshold 0.37037 by default). So flags are upward closed in the mean distance, every flagged example has a score no larger than every unflagged one, at most (N + 2)/4 examples are flagged, a smaller threshold never flags more, threshold 0 flags none, scores do not depend on the threshold, changing the unit of the distances does not change the flags, and reordering the examples reorders flags and scores. The check raises ValueError exactly when the threshold is outside [0, 1] or the metric is 'minkowski', and nothing else.", "quantifier": "for all datasets, neighbour distances, thresholds, metrics, scaling factors and sorting routines", "why_tests_cant": "Invariance under units and order, monotonicity in the threshold and the cap on the number of flags quantify over all datasets and pairs of runs.", "anchors": ["cleanlab/datalab/internal/issue_manager/outlier.py:106-146", "cleanlab/datalab/internal/issue_manager/outlier.py:190-209"]}
{"id": "C86", "title": "Datalab's outlier flags from predicted probabilities are relative to the median score", "statement": "Without features or a sufficient graph the outlier check uses predicted probabilities: an example is flagged if and only if its score is below threshold times the median score (threshold 0.13 by default). With a threshold up to 1 at most half of the examples are flagged, threshold 0 flags none, and a smaller threshold never flags more. A negative threshold raises ValueError, as does having neither input; with a graph or features the predicted probabilities are ignored.", "quantifier": "for all score vectors, thresholds and sorting routines", "why_tests_cant": "Bounds and monotonicity over all score vectors and pairs of thresholds.", "anchors": ["cleanlab/datalab/internal/issue_manager/outlier.py:147-171"]}
{"id": "C87", "title": "Regression residual scores and input checks", "statement": "cleanlab.regression.rank.get_label_quality_scores accepts labels and predictions exactly when both are numeric columns (all axes but one of length one) of the same length of at least two, without missing values, and the method is known; unequal lengths raise AssertionError and every other defect ValueError (a single example is always refused). With method='residual' every score is in (0, 1], equals 1 exactly if the prediction equals the label, is ordered by the absolute error, and depends on nothing but the example's own label and prediction.", "quantifier": "all arrays of any shape and size, all methods", "why_tests_cant": "tests try a handful of malformed inputs and check scores of one small dataset", "anchors": ["cleanlab/regression/rank.py:22-119", "cleanlab/internal/regression_utils.py:11-113"]}
{"id": "C88", "title": "Regression outre scores: range and invariances", "statement": "With the default method 'outre' every score is in (0, 1]; adding one constant to all predictions, or to all labels and predictions, or flipping the sign of both, changes no score; and reading the examples in another order reorders the scores with them. The scores measure how unusual a (label, residual) pair is, not the size of the error: an exactly predicted label can get the strictly lowest score.", "quantifier": "all label and prediction vectors, all constants, all orders", "why_tests_cant": "invariance over all real datasets and all constants", "anchors": ["cleanlab/regression/rank.py:122-173", "cleanlab/outlier.py:371-479"]}
{"id": "C89", "title": "Datalab's regression label flags", "statement": "When Datalab checks regression labels against predictions, an example is flagged exactly if its quality score is below threshold (default 0.05) times the median score; for threshold at most 1 at most half of the examples are flagged and for threshold 0 none. With method='residual' and an odd number of examples that means: the absolute error exceeds the median absolute error by more than -ln(threshold), in the units of the label. Predictions are preferred over features unless a custom model was given, a custom model needs features, and having neither is an error.", "quantifier": "all datasets, thresholds and input combinations", "why_tests_cant": "the flag rule and its consequences hold for every dataset size and threshold", "anchors": ["cleanlab/datalab/internal/issue_manager/regression/label.py:61-197"]}
{"id": "C90", "title": "Out-of-sample probabilities from features in Datalab's label check", "statement": "Without pred_probs Datalab's label check predicts classes from the k+1 nearest neighbours and removes each example's own vote. If no example has more than k exact copies, the result for an example is the share of each class among its other k neighbours: a probability distribution that does not depend on the example's own label. In general the probabilities are refused with ValueError exactly when some example has none of its own class among its neighbours, which must happen when more than k+1 copies of an example all carry different labels.", "quantifier": "all datasets, all k, all results of the neighbour search", "why_tests_cant": "the correction term is only right when the example is its own neighbour, which depends on ties", "anchors": ["cleanlab/datalab/internal/issue_manager/label.py:115-168", "cleanlab/internal/validation.py:13-112"]}
{"id": "C91", "title": "The joint-based methods of num_label_issues", "statement": "num_label_issues with estimation_method 'off_diagonal_calibrated' returns exactly the number of examples off the diagonal of the calibrated confident joint, and with 'off_diagonal_custom' exactly that of the supplied confident joint calibrated to the labels: an integer between 0 and the number of examples that is less than the number of classes away from the sum over the classes of class size times off-diagonal share. The default method ignores a supplied confident joint; 'off_diagonal_custom' without one and unknown methods raise ValueError.", "quantifier": "for all labels, predicted probabilities, confident joints, numbers of classes and sorting routines", "why_tests_cant": "the count passes through two calibrations, a normalisation, a trace and a final rounding; tests compare it on a few data sets and can not exclude an off-by-one for other counts or class sizes", "anchors": ["cleanlab/count.py:50-173", "cleanlab/count.py:329-399", "cleanlab/count.py:239-326"]}
{"id": "C92", "title": "frac_noise returns a nested fraction of the issues", "statement": "For the three pruning filters of find_label_issues (without num_to_remove_per_class) a smaller frac_noise flags a subset of the examples a larger one flags. prune_by_class marks, before the agreement filter, frac_noise times the off-diagonal count of each class, rounded up. frac_noise=0 flags nothing. The other filters ignore frac_noise.", "quantifier": "for all labels, predicted probabilities, confident joints, fractions, options, worker schedules and sorting routines", "why_tests_cant": "nestedness relates two runs for every pair of fractions; truncation and the minimum-examples correction matter only for particular counts", "anchors": ["cleanlab/filter.py:539-604", "cleanlab/filter.py:607-635", "cleanlab/filter.py:829-907", "cleanlab/filter.py:311-435"]}
{"id": "C93", "title": "A noise matrix counts as valid exactly when every label is informative", "statement": "noise_matrix_is_valid returns True, for class priors that sum to one and a noise matrix whose columns sum to one, exactly when every class has positive prior and its own label is strictly more likely given the class than it is overall. It follows that a valid matrix has trace above 1, that with two classes (both with positive prior) trace above 1 is also sufficient, that a label given with one and the same probability for all classes makes the matrix invalid, and that the identity matrix is valid exactly when there are two or more classes and none has prior zero.", "quantifier": "for all numbers of classes, noise matrices and priors", "why_tests_cant": "the strict inequality matters only on the boundary, which random matrices never hit, and trace>1 being insufficient needs three or more classes", "anchors": ["cleanlab/benchmarking/noise_generation.py:18-64"]}
{"id": "C94", "title": "generate_noise_matrix_from_trace delivers what was requested", "statement": "For three or more classes and keyword arguments that can be met, generate_noise_matrix_from_trace terminates without exception. A matrix it returns has columns that sum to one, the requested trace, diagonal entries and noise rates within the requested bounds up to 1e-6, and at least the requested share of zero noise rates as far as each noisy class keeps one noise rate; with valid_noise_matrix=True it is valid for the given priors. None is returned only if no try was valid (or max_iter is 0). For two classes and 1 < trace <= 2 a matrix with that trace is always returned and is valid for every pair of positive priors. Impossible requests raise ValueError.", "quantifier": "for all numbers of classes, traces, keyword arguments and all outcomes of the random draws", "why_tests_cant": "the random draws cannot be enumerated; termination and the bounds have to hold for every draw", "anchors": ["cleanlab/benchmarking/noise_generation.py:175-337", "cleanlab/benchmarking/noise_generation.py:340-468"]}
{"id": "C95", "title": "The batched search flags the lowest-scored examples, never one whose label is the predicted class", "statement": "find_label_issues_batched with default settings flags, among the n lowest-scored examples (n being the number of examples confidently predicted to belong to another class), exactly those whose label is beaten by another class; with any settings an example whose label is the predicted class is never flagged. Labels and predicted probabilities of different lengths raise ValueError.", "quantifier": "for all datasets, batch sizes, scoring methods, numbers of worker processes, schedules and sorting routines", "why_tests_cant": "the batch size and the process schedule interact with the thresholds accumulated over batches", "anchors": ["cleanlab/experimental/label_issues_batched.py:63-238", "cleanlab/experimental/label_issues_batched.py:369-650"]}
{"id": "C96", "title": "With quality_method=\"agreement\" the consensus is the most common label and its quality the share of annotators who gave it", "statement": "get_label_quality_multiannotator(quality_method=\"agreement\") reports, per example, a consensus label that is a most common label among its annotators (the clear winner whenever there is one), and as its quality the share of the example's annotators who gave that label.", "quantifier": "for all tables of labels, numbers of classes and annotators, predicted probabilities and random tie-breaks", "why_tests_cant": "the outcome depends on the type in which the labels arrive and on gaps between the labels used", "anchors": ["cleanlab/multiannotator.py:1480-1520", "cleanlab/multiannotator.py:1640-1700", "cleanlab/internal/util.py:113-168"]}
{"id": "C97", "title": "Temperature scaling returns a distribution, keeps the order of the classes and moves confidence monotonically", "statement": "Scaling predicted probabilities with any temperature gives strictly positive rows that sum to one, never changes the order of the classes, is the identity at temperature 1, and the confidence in the top class decreases as the temperature grows: temperatures below 1 sharpen, above 1 smooth.", "quantifier": "for all rows, numbers of classes and temperatures", "why_tests_cant": "quantifies over real-valued rows and temperatures; involves exp and log", "anchors": ["cleanlab/internal/multiannotator_utils.py:337-352", "cleanlab/internal/numerics.py:7-39"]}
{"id": "C98", "title": "Calibration picks the searched temperature of least cross entropy against the annotators", "statement": "With calibrate_probs=True the temperature used minimises, among all temperatures searched, the average cross entropy between the share of annotators per class and the scaled predictions; it lies inside the searched range.", "quantifier": "for all tables of labels, predictions, search ranges and grid sizes", "why_tests_cant": "the search is a two-stage grid whose second stage depends on the first; label counting depends on the type of the labels", "anchors": ["cleanlab/internal/multiannotator_utils.py:255-334"]}
{"id": "C99", "title": "Ensemble scores weighted by log loss", "statement": "get_label_quality_ensemble_scores(..., weight_ensemble_members_by='log_loss_search') gives every example the average of the members' scores with positive weights summing to one, proportional to exp(-t * log loss of the member) for a value t among those searched that minimises the log loss of the averaged predictions; a member of smaller log loss never weighs less, and the score lies between the members' lowest and highest score. A class absent from the labels makes the call raise ValueError.", "quantifier": "for all labels, ensembles of any size, values to search, scoring methods and adjustment settings", "why_tests_cant": "The choice of t depends on real-valued losses of every candidate; tests look at a few ensembles and never at the optimality of the choice over all of them.", "anchors": ["cleanlab/rank.py:245-291", "cleanlab/rank.py:337-348"]}
{"id": "C100", "title": "Co-teaching trains each network on what the other finds easy", "statement": "loss_coteaching returns for each network the average (weighted) loss over the int((1 - forget_rate) * batch size) examples on which the other network has the smallest loss.", "quantifier": "for all batches, losses, class weights, forget rates and sorting results", "why_tests_cant": "Needs PyTorch and a GPU and has no tests at all; which examples are exchanged depends on ties and rounding for all batch sizes.", "anchors": ["cleanlab/experimental/coteaching.py:22-71"]}
{"id": "C101", "title": "Co-teaching schedules", "statement": "The fraction of examples forgotten starts at zero, never decreases, never exceeds forget_rate and equals it after the gradual epochs; the learning rate is constant until the decay starts, then strictly decreasing and always positive.", "quantifier": "for all numbers of epochs, forget rates, exponents, numbers of gradual epochs, learning rates and decay starts", "why_tests_cant": "A statement about whole schedules for every setting; there are no tests of this module.", "anchors": ["cleanlab/experimental/coteaching.py:74-83", "cleanlab/experimental/coteaching.py:93-98"]}
{"id": "C102", "title": "Co-teaching accuracy and batches", "statement": "evaluate returns the percentage of correctly predicted examples whatever the batching, between 0 and 100; train uses every batch except a last one of fewer than 16 examples and reports the plain average of the batch accuracies, failing if there is no other batch.", "quantifier": "for all lists of batches of any sizes", "why_tests_cant": "Independence of the batching is a statement about every way of splitting the data.", "anchors": ["cleanlab/experimental/coteaching.py:137-227"]}
{"id": "C103", "title": "Label issue search always succeeds on valid data", "statement": "find_label_issues called on valid data with at least two classes returns, for every filter_by, a mask with one entry per example, and with return_indices_ranked_by exactly the flagged examples without repetition; it never raises. If every label is class 0 the four confident-learning filters flag nothing and the others raise ValueError; a single class other than 0 always raises ValueError.", "quantifier": "for all labels, predictions, numbers of classes (absent classes included), supplied confident joints, noise fractions and sorting results", "why_tests_cant": "That no exception path is reachable is a statement about all data sets, including degenerate ones (classes without examples, all-equal predictions); tests cover a handful of them.", "anchors": ["cleanlab/filter.py:57-450", "cleanlab/filter.py:208-222"]}
{"id": "C104", "title": "Which inputs are accepted", "statement": "assert_valid_inputs accepts labels exactly when they are class numbers 0, 1, 2, ..., with two different ones unless one class is allowed and no missing class unless allowed; predictions exactly when there is a row per label, a column for every class and entries in [0, 1] up to 1e-6 (rows need not sum to one, features are then ignored); without predictions the features must have one indexable row per label. All rejections are ValueErrors except TypeError for a missing class.", "quantifier": "for all label arrays, matrices, feature shapes, flag settings, and multi-label lists", "why_tests_cant": "Tests try a few bad inputs; that nothing else is rejected and nothing bad slips through is an equivalence over all inputs.", "anchors": ["cleanlab/internal/validation.py:13-112"]}
{"id": "C105", "title": "Span classification", "statement": "experimental.span_classification: the score of a token is the probability the model gives to its label (p for inside, 1 - p for outside), the sentence score the minimum; find_label_issues returns, when both labels occur, different existing tokens whose label the model considers less likely than the other one, ordered by score.", "quantifier": "for all nested labels and probabilities of any shape and all sorting results", "why_tests_cant": "Holds for every nesting of sentences; the flat and nested positions could disagree on shapes no test uses.", "anchors": ["cleanlab/experimental/span_classification.py:17-106"]}
{"id": "C106", "title": "Displayed token issues", "statement": "display_issues prints the first `top` issues that are not excluded swaps, in the given order, each with its word, its given label and the most likely class, by name when names are given; likewise for spans.", "quantifier": "for all issues, tokens, labels, predictions, exclusions, names and values of top", "why_tests_cant": "The printed output is only checked for a few calls; the interplay of top, exclude and absent arguments is not.", "anchors": ["cleanlab/token_classification/summary.py:12-138", "cleanlab/experimental/span_classification.py:65-88"]}
{"id": "C107", "title": "Object detection data summaries", "statement": "object_counts_per_image gives the number of annotated and predicted boxes of every image; get_sorted_bbox_count_idxs lists every image once, most boxes first and ties in image order; bounding_box_size_distribution maps every (named) class that occurs to the areas of all its boxes in order, sort=True only reordering the classes by count; class_label_distribution maps every class that occurs to its share of the boxes (within 0.005) and raises KeyError for a class without a name; the shares add up to one.", "quantifier": "for all images, boxes, predictions and class name dictionaries", "why_tests_cant": "Counting over all nested inputs, with names merging or dropping classes; the tests use one small data set.", "anchors": ["cleanlab/object_detection/summary.py:48-236", "cleanlab/object_detection/summary.py:653-674"]}
{"id": "C108", "title": "Multi-annotator label formats", "statement": "convert_long_to_wide_dataset returns a table with one row per task and one column per annotator, both in increasing order, whose cells are exactly the labels of the long table (missing otherwise), and raises ValueError if an annotator labelled a task twice; format_multiannotator_labels replaces integer or string labels by their rank among the labels that occur, keeps missing entries and returns the map giving the original labels back.", "quantifier": "for all tables, task and annotator identifiers of any ordered type, integer labels and string labels other than 'nan'", "why_tests_cant": "A round trip over all tables; tests format one or two.", "anchors": ["cleanlab/multiannotator.py:1063-1090", "cleanlab/internal/multiannotator_utils.py:190-232"]}
{"id": "C109", "title": "Which multi-annotator labels are accepted", "statement": "assert_valid_inputs_multiannotator accepts a table exactly when it is not empty, every example has a label, every annotator labelled something, some example has two labels (unless allow_single_label), and the predictions have one row per example and a column for every class; every rejection is a ValueError.", "quantifier": "for all tables, prediction shapes and flag values", "why_tests_cant": "An equivalence over all tables; the tests show that a few bad ones are rejected.", "anchors": ["cleanlab/internal/multiannotator_utils.py:19-125"]}
{"id": "C110", "title": "Stored info is shown with the user's labels and cannot be damaged", "statement": "Datalab.get_info(name) changes nothing that is stored; whatever the caller then writes into the returned dictionary, a later call returns the same content. In classification the given labels appear exactly as the user wrote them, predicted labels as class names, class_names lists each occurring class once and all other entries are unchanged; likewise for multilabel tasks and for the columns of get_issues('label').", "quantifier": "for all stored info, label values of any ordered type, numbers of classes and sequences of writes by the caller", "why_tests_cant": "Aliasing shows only for particular later writes, and the label map round trip is a statement about all label sets.", "anchors": ["cleanlab/datalab/internal/data_issues.py:73-162", "cleanlab/datalab/internal/data_issues.py:198-256", "cleanlab/datalab/internal/data.py:296-301"]}
{"id": "C111", "title": "What the Datalab report contains", "statement": "report lists exactly the checks with at least one issue (all checks with show_all_issues), each once, most issues first, and for each a section with the number of flagged examples, the overall score and the num_examples examples of lowest score from the latest run of that check; it says that there are no issues exactly when every check found none.", "quantifier": "for all histories of find_issues calls and check results, numbers of examples shown, verbosity and sorting results", "why_tests_cant": "The report is built from several tables maintained over any history of calls; tests compare strings for a few.", "anchors": ["cleanlab/datalab/internal/report.py:76-195", "cleanlab/datalab/internal/issue_manager/issue_manager.py:190-330"]}
{"id": "C112", "title": "Verbosity of the report", "statement": "A section shows exactly the info entries of the verbosity levels up to the requested one (all entries at the top level), except those already shown as columns, long lists cut after four entries; the report succeeds for every verbosity level of the built-in checks.", "quantifier": "for all values stored in the info, verbosity levels and histories of find_issues calls", "why_tests_cant": "Printing depends on the shape of every stored value; the tests print few of the combinations of checks and levels.", "anchors": ["cleanlab/datalab/internal/issue_manager/issue_manager.py:190-330", "cleanlab/datalab/internal/report.py:130-144"]}
{"id": "C113", "title": "Registering custom checks", "statement": "After any sequence of register calls, a check name looked up for a task gives the class last accepted under that name for that task, or the original one if none was; registration is refused with ValueError exactly for classes that are not issue managers and unknown tasks, and other tasks and names are unaffected.", "quantifier": "for all sequences of registrations, classes, names and task strings", "why_tests_cant": "A statement about every sequence of updates of a shared registry.", "anchors": ["cleanlab/datalab/internal/issue_manager_factory.py:119-225", "cleanlab/datalab/internal/task.py:44-76"]}
{"id": "C114", "title": "The order of the examples does not matter", "statement": "Permuting the rows of labels and pred_probs together permutes the mask of find_label_issues in the same way, for every filter, provided no two examples are tied in the values this filter sorts by; the calibrated confident joint and num_label_issues are unchanged whatever the ties.", "quantifier": "for all data sets, permutations, sorting routines, filters and options without num_to_remove_per_class", "why_tests_cant": "Permutations of data sets of any size; a unit test tries one shuffle of one data set.", "anchors": ["cleanlab/filter.py:233-511", "cleanlab/count.py:406-622"]}
{"id": "C115", "title": "The numbering of the classes does not matter", "statement": "Renumbering the classes (labels and columns of pred_probs together) changes neither the masks of confident_learning and predicted_neq_given nor num_label_issues, provided no row has two equal largest probabilities and no class leads the given label by exactly 1e-6; self_confidence and normalized_margin scores never change. Whether the pruning filters have the property too is settled by a counterexample.", "quantifier": "for all data sets, numbers of classes and permutations of the classes", "why_tests_cant": "An invariance under all K! renumberings.", "anchors": ["cleanlab/filter.py:398-511", "cleanlab/count.py:406-622", "cleanlab/rank.py:93-170"]}
{"id": "C116", "title": "Repeating the data set repeats the result", "statement": "Passing c copies of the data set, one after the other, gives c copies of the mask for confident_learning and predicted_neq_given, and num_label_issues is multiplied by c; for the pruning filters this fails.", "quantifier": "for all data sets and c >= 1", "why_tests_cant": "An invariance for all c and all data sets.", "anchors": ["cleanlab/filter.py:398-511", "cleanlab/count.py:406-622"]}
{"id": "C117", "title": "Regression CleanLearning trains on exactly the unflagged examples and carries nothing over", "statement": "When CleanLearning.fit (regression) completes, the wrapped model has been trained exactly once: on the examples not flagged, in order, each with its own target and sample weight, with model_final_kwargs overriding model_kwargs; the table of flags is the caller's (or the one found) and get_label_issues returns it. Wrong arguments (targets missing, lengths differing, weights in the keyword arguments, a table of other labels) raise ValueError and change neither object nor model. fit equals find_label_issues followed by fit with the returned table. With supplied flags the outcome depends on nothing the object did before, and nothing is carried over from earlier datasets in any case. Targets in an (N, 1) array and features in a list pass the checks but cannot be fitted.", "quantifier": "for all features, targets, weights, keyword arguments, models, fold assignments and histories of calls", "why_tests_cant": "Histories of calls and every kind of container for the arguments; tests fit a fresh object once.", "anchors": ["cleanlab/regression/learn.py:128-306", "cleanlab/regression/learn.py:362-535", "cleanlab/regression/learn.py:608-623", "cleanlab/regression/learn.py:837-871", "cleanlab/internal/util.py:437-468", "cleanlab/internal/regression_utils.py:51-113"]}
{"id": "C118", "title": "Sentences show every token, colour codes surround copies of the word and nothing else changes, token replacements are simultaneous", "statement": "get_sentence adds and removes only white space; words without white space appear whole and in order with at most one space in front. color_sentence (word without backslash) returns the sentence with colour codes around some copies of the word and nothing else changed; a word that occurs is coloured at least once, and a word made of word characters is coloured exactly where it is a word of its own (if it is anywhere). So in the sentence of a list of tokens every token can be shown. process_token replaces from left to right, first matching key first, and never replaces a replacement; with one-character keys every character is replaced on its own. A punctuation token may be coloured inside another token instead; a token with a backslash gives an exception or other text; an empty list of rules raises KeyError.", "quantifier": "for all words, sentences, replacement rules and classes of word and white-space characters", "why_tests_cant": "All strings; the failing cases need particular punctuation.", "anchors": ["cleanlab/internal/token_classification_utils.py:19-45", "cleanlab/internal/token_classification_utils.py:93-130", "cleanlab/internal/token_classification_utils.py:213-275", "cleanlab/token_classification/summary.py:101-135"]}
{"id": "C119", "title": "An image audit runs exactly the checks asked for and survives failing image checks", "statement": "For a Datalab with images, find_issues hands the entries of issue_types other than image_issue_types and spurious_correlations to the ordinary checks exactly as for a dataset without images; without those two entries nothing else happens. CleanVision is asked for exactly the listed image checks in order, each with the given parameters or, without parameters, with Datalab's defaults; without issue_types it runs the seven defaults. If CleanVision or the correlation step raises, the call still completes with the ordinary results stored. The spurious correlations in the info are replaced exactly when they are asked for (or nothing is), labels exist, some image score exists and the computation succeeds; the threshold is the given one or 0.3.", "quantifier": "every issue_types dictionary, every state of the Datalab and the Imagelab, every outcome of the ordinary checks, of CleanVision and of the correlation step", "why_tests_cant": "Tests run a few requests on one small image folder with a working CleanVision; which combinations of keys, failures and earlier audits lead where is a case analysis over all of them.", "anchors": ["cleanlab/datalab/internal/adapter/imagelab.py:ImagelabIssueFinderAdapter.find_issues", "cleanlab/datalab/internal/adapter/imagelab.py:handle_spurious_correlations", "cleanlab/datalab/datalab.py:Datalab.find_issues"]}
{"id": "C120", "title": "A Datalab holds the user's dataset and labels whatever format they come in", "statement": "Datalab(data, task, label_name): the same columns passed as a Dataset, DataFrame, dict, list or file give the same labels or the same error. For classification the labels become 0..K-1 in the order of the distinct labels, class_names lists those, and number i's name is the label written in the data; a ClassLabel column keeps its codes and names; multi-label data is numbered the same way; regression targets are kept unchanged. Unsupported data is refused with an exception before anything is audited. Two datasets compare equal only if they are the same object with the same label column, and loading the same object again with the same labels gives an equal one when all examples have the same number of labels.", "quantifier": "every dataset, column and label type with a total order, every format, task and label column, every content of the file system and hub", "why_tests_cant": "Tests load a handful of small datasets in each format; that the numbering and the comparison hold for all columns and that formats agree is a statement about all of them.", "anchors": ["cleanlab/datalab/internal/data.py:Data", "cleanlab/datalab/internal/data.py:Label", "cleanlab/datalab/internal/data.py:MultiClass", "cleanlab/datalab/internal/data.py:MultiLabel"]}
{"id": "C121", "title": "print(datalab) tells whether checks ran and how many issues were found", "statement": "After any sequence of find_issues calls on a dataset with at least one row, print(datalab) says 'Checks run: Yes' exactly if some check has ever succeeded, and the number of issues it shows is the number of flags in the table summed over the checks that succeeded, each once; otherwise it says 'Not checked'. repr shows the same and leaves out the numbers that are not known.", "quantifier": "every history of audits with arbitrary outcomes, every task and statistics", "why_tests_cant": "Tests print a Datalab before and after one call; the equality of the count with the flags over all histories with repeated and failing checks is not covered.", "anchors": ["cleanlab/datalab/internal/display.py:RepresentationStrategy", "cleanlab/datalab/internal/display.py:_Displayer"]}
{"id": "C122", "title": "All checks of a Datalab share one neighbour graph of the features given", "statement": "Over any sequence of distance-based checks (outlier, near_duplicate, non_iid, underperforming_group, data_valuation), run in one or several find_issues calls with the same features and metric and whichever of them fail, every check works on a neighbour graph computed from exactly these features with at least the k it asked for, the graph kept in info['statistics'] is one of these and is labelled with its own metric, and it is only replaced by a graph with more neighbours. A knn_graph passed by the user is what every check uses. Graphs of predicted probabilities are not kept when there is no other graph.", "quantifier": "every sequence of checks with every choice of k, every set of failing checks, every search backend", "why_tests_cant": "the graph a check gets depends on the whole history of earlier checks and failures; tests run a few fixed orders with one k", "anchors": ["cleanlab/datalab/internal/issue_manager/outlier.py:97-284", "cleanlab/datalab/internal/issue_manager/duplicate.py:52-172", "cleanlab/datalab/internal/issue_manager/noniid.py:103-267", "cleanlab/datalab/internal/issue_manager/underperforming_group.py:79-292", "cleanlab/datalab/internal/issue_manager/data_valuation.py:87-190"]}
{"id": "C123", "title": "Counts, joints and thresholds of multi-label data are the per-class one-vs-rest ones, for every class list", "statement": "For multi-label data (each example has any set of the K classes): get_confident_thresholds(multi_label=True) returns K pairs; the second entry is the average predicted probability of the class over the examples that have it and the first the average of one minus it over the examples that lack it (never below 2e-6, unreachable when there are no such examples). estimate_joint(multi_label=True) returns K 2x2 distributions (non-negative, summing to 1) whose second row sums to the fraction of examples that have the class, whether or not a confident joint is given, and also when a class is on all or on none of the examples. calibrate_confident_joint(multi_label=True) returns one integer matrix per class with row sums equal to the numbers of examples lacking and having the class. num_label_issues(multi_label=True) is the number of examples the confident-learning filter flags. find_predicted_neq_given(multi_label=True) flags exactly the examples where some class is given but predicted at most 1/2 likely or not given but predicted more than 1/2 likely.", "quantifier": "all numbers of examples and classes, all class sets, all probabilities, all confident joints", "why_tests_cant": "the statements quantify over every assignment of class sets to examples, including empty sets and classes that occur everywhere or nowhere, which no finite list of examples covers", "anchors": ["cleanlab/count.py:294 _calibrate_confident_joint_multilabel", "cleanlab/count.py:399 _estimate_joint_multilabel", "cleanlab/count.py:1461 _get_confident_thresholds_multilabel", "cleanlab/count.py:176 _num_label_issues_multilabel", "cleanlab/filter.py:672 _find_predicted_neq_given_multilabel"]}
{"id": "C124", "title": "A class declared free of label errors is never flagged", "statement": "CleanLearning(pulearning=a) declares that, of two classes, no example labelled a is mislabelled. In the standard (not low-memory) mode with the default filter, prune_by_noise_rate or both, find_label_issues then never flags an example whose given label is a, at any point of the object's history; the estimated noise matrix, its inverse and the confident joint it keeps say that no example of the other class is labelled a. Likewise filter.find_label_issues never flags an example of a class that the given confident joint declares free of other classes.", "quantifier": "every two-class dataset, every predicted probabilities, every thresholds and matrices passed, every earlier use of the object, every frac_noise and min_examples_per_class", "why_tests_cant": "Tests of the positive-unlabelled setting use one synthetic dataset and only compare accuracies; no number of examples shows that an example of the trusted class is never removed.", "anchors": ["cleanlab/classification.py:189-199", "cleanlab/classification.py:893-903", "cleanlab/filter.py:300-420"]}
{"id": "C125", "title": "The PyTorch wrapper predicts row r for example idx[r]", "statement": "mnist_pytorch.CNN.predict_proba(idx) returns exactly one row per index, row r being the network's answer for example idx[r] of the data in use (repetitions and any order allowed), whatever the batch sizes; without indices it returns one row per example in the order of the data. An object created for one part of the data uses it whatever the call names; unknown and empty index lists are refused.", "quantifier": "every dataset, network, index list shorter or longer than the data (or equal to 0..n-1), batch sizes, loader", "why_tests_cant": "Tests compare accuracies on one dataset with one batch size; alignment for all index lists and batch sizes is not testable.", "anchors": ["cleanlab/experimental/mnist_pytorch.py:320-370", "cleanlab/experimental/mnist_pytorch.py:43-80"]}
{"id": "C126", "title": "The PyTorch wrapper trains once per epoch on every listed example with its given label", "statement": "mnist_pytorch.CNN.fit(train_idx, train_labels) runs the stated number of epochs; in each of them every position of train_idx is used exactly once, in batches that are full except the last one, with the label given for it (with the label of the data when none are given); the new weights come from these batches alone. With sample weights that depend on the label only, each example's loss is weighted by its own weight.", "quantifier": "every dataset, optimiser, index list without repetitions, labels, order drawn by the sampler, batch size and number of epochs", "why_tests_cant": "The order is random and the result of training is only observed through accuracies.", "anchors": ["cleanlab/experimental/mnist_pytorch.py:228-318"]}
{"id": "C127", "title": "Splitting and lending feature rows keeps every example intact", "statement": "For features given as a two-dimensional array, a pandas object or a sparse matrix, the training and holdout parts of a cross-validation fold hold exactly the examples of their indices in order; lending a holdout example to the training part (for a class without training example) adds exactly that example behind the others, for sparse matrices too; flattening examples with several axes for the default classifier keeps each example's numbers in order; storing labels with fewer bits does not change a label, for any number of classes.", "quantifier": "every feature object, index lists, sparse structure (repeated entries, empty rows), number of classes", "why_tests_cant": "Sparse stacking manipulates three arrays by hand; tests stack one pair of matrices.", "anchors": ["cleanlab/internal/util.py:387-434", "cleanlab/internal/util.py:482-516", "cleanlab/internal/util.py:598-616", "cleanlab/count.py:1008-1033"]}
{"id": "C128", "title": "The summary row and the info of Datalab's label check agree with its table", "statement": "After a successful label check in classification the score of the summary row is one minus the share of estimated label errors (the examples counted into another class by the reported thresholds), lies in [0,1] and depends on labels and predicted probabilities only; with the filters confident_learning, low_self_confidence and low_normalized_margin it is one minus the share of flagged examples. The info's number of issues, average quality, given and predicted labels, class tables and confident joint agree with the data and the issues table. Custom health_summary_parameters work only with class names and without a joint.", "quantifier": "all labels, predicted probabilities or features, CleanLearning settings, thresholds, noise matrices, statistics and summary parameters", "why_tests_cant": "Tests compare score and counts on one dataset with the default settings; they do not relate the score to the flags for every filter, setting and dataset.", "anchors": ["cleanlab/datalab/internal/issue_manager/label.py:57-113", "cleanlab/datalab/internal/issue_manager/label.py:115-273", "cleanlab/dataset.py:361-488"]}
{"id": "C129", "title": "Active learning with an ensemble scores by quality and weight, and overwrites the caller's probabilities in a known way", "statement": "multiannotator.get_active_learning_scores_ensemble gives a labelled example the average of its consensus quality, weighted by its annotators and all models, and 1/K, weighted by an average annotator; an unlabelled example the average of the models' probabilities for the class most of them favour and 1/K. A score lies between 1/K and the quality, examples of lower quality labelled by fewer annotators come first, unlabelled examples score in [0,1] and at least 1/K when the models agree. The arrays passed in are overwritten: those of the labelled examples by the calibrated probabilities unless each example has one label, those of the unlabelled examples by the probabilities scaled with the same temperatures; nothing else is changed and rejected arguments are left alone.", "quantifier": "every annotation table, number of models, examples, annotators and classes, every temperature search and scaling that keeps distributions, every random choice, arguments that are the same array or not", "why_tests_cant": "Tests check shapes and that two scores are close on one dataset; that the caller's arrays change, and by what, shows only if they look at their inputs afterwards.", "anchors": ["cleanlab/multiannotator.py:729-894", "cleanlab/multiannotator.py:415-490", "cleanlab/internal/multiannotator_utils.py:128-187"]}
{"id": "C130", "title": "Noise estimated with the library's own cross-validation", "statement": "Calling estimate_py_noise_matrices_and_cv_pred_proba with any classifier, any stratified split and any thresholds gives predictions for each example from a model that did not see it, a confident joint that counts every example exactly once in the row of its given label, a strictly positive prior summing to one, an inverse noise matrix whose columns sum to one, and a noise matrix whose column sums to one for every class that some example was counted into (the column is zero otherwise). Unless the noise is extreme (a class below 1 in 100000 of the examples, a noise rate above 99.99%), the estimates are exactly the proportions in the confident joint, whichever py_method is used and whether or not convergence is requested. Running the cross-validation oneself and calling estimate_py_and_noise_matrices_from_probabilities gives the same result, and estimate_noise_matrices and estimate_cv_predicted_probabilities return the corresponding parts.", "quantifier": "all datasets in which every class occurs, all classifiers (functions of the training data), all splits into folds, all thresholds, the py methods cnt, marginal and marginal_ps, with and without convergence", "why_tests_cant": "tests run one classifier on one small dataset and check shapes; equality of all methods with the proportions needs an argument over all confident joints, including the fixpoint of the convergence loop", "anchors": ["cleanlab/count.py:799-885", "cleanlab/count.py:1059-1177", "cleanlab/count.py:1180-1243", "cleanlab/count.py:1246-1328", "cleanlab/count.py:715-796"]}
{"id": "C131", "title": "Confident learning is exact when predictions separate the true classes", "statement": "If every example's true class gets clearly the largest predicted probability, and at least the average probability that examples given that label get for it (for instance: predictions that depend on the true class only, through a matrix whose diagonal dominates its rows and columns, such as the actual noise rates), then find_label_issues with the default filter, predicted_neq_given or low_normalized_margin flags exactly the wrong labels, num_label_issues is their number, the calibrated confident joint and estimate_joint are the true table of given label against true class, and the estimated prior, noise matrix and inverse noise matrix are the true frequencies. The pruning filters and low_self_confidence are exact too when wrong labels get less probability than correct ones and the margins separate; with a perfect classifier all seven filters are.", "quantifier": "all numbers of examples and classes, all labels and true classes, all predictions meeting the condition, all sorting orders, all options with the default plan", "why_tests_cant": "tests compare with a tolerance on a few synthetic datasets; the guarantee of the method is exactness for every dataset meeting the condition, and the code adds tolerances, thresholds, calibration, rounding, clipping and de-duplication on top of the method", "anchors": ["cleanlab/count.py:404-612", "cleanlab/count.py:1407-1458", "cleanlab/count.py:329-399", "cleanlab/count.py:799-885", "cleanlab/filter.py:57-450", "cleanlab/count.py:50-173"]}
{"id": "C132", "title": "Everything built on confident learning is exact when the predictions separate the true classes", "statement": "If the predictions meet the separation condition of C131 (and wrong labels get less probability than correct ones, margins separate, enough correct examples per class), then CleanLearning.fit on a new object trains the classifier on exactly the correctly labelled examples with their true classes, weighting each by the inverse of the actual fraction of correctly labelled examples of its class (capped at 1000), with and without low_memory; find_label_issues_batched flags exactly the wrong labels for every batch size and schedule; the token classification finder returns exactly the tokens with a wrong class, ordered by score; the segmentation finder marks exactly the pixels with a wrong class; the multi-label finder flags, per class, exactly the examples on which the class is wrongly given or wrongly missing, and overall exactly the examples with some such class.", "quantifier": "all numbers of examples, sentences, images and classes, all given and true labels, all predictions meeting the condition, all batch sizes, schedules and sorting orders", "why_tests_cant": "each task module wraps the classification finder in flattening, index translation, batching, ranking, thresholds and masks; that no wrapper loses or adds an issue is a statement about all shapes and datasets", "anchors": ["cleanlab/classification.py:265-582", "cleanlab/classification.py:675-947", "cleanlab/experimental/label_issues_batched.py:60-180", "cleanlab/token_classification/filter.py:15-101", "cleanlab/segmentation/filter.py:14-208", "cleanlab/multilabel_classification/filter.py:13-303", "cleanlab/filter.py:453-536"]}
{"id": "C133", "title": "Removing the reported label issues leaves nothing to report, except where thresholds fall", "statement": "Drop the examples that find_label_issues flags and search again with the same predictions. If the filter was predicted_neq_given, the second search finds nothing, with any filter and options, and num_label_issues is 0; the same holds if these examples get the predicted class as label instead. If it was confident_learning (the default), the second search (confident_learning, low_self_confidence, low_normalized_margin) finds nothing when there are two classes and probabilities sum to one, and with any filter when the predictions separate the true classes. With three or more classes a second round can flag examples that the first one kept.", "quantifier": "all datasets, predictions, options of the first and the second search and sorting orders; the cleaned data must still contain two classes", "why_tests_cant": "the thresholds are averages over the examples that are being removed; whether they can only rise is a statement about all datasets, and a test on one dataset shows neither that nor the exception", "anchors": ["cleanlab/filter.py:57-450", "cleanlab/count.py:404-612", "cleanlab/count.py:1407-1458", "cleanlab/count.py:329-399"]}
{"id": "C134", "title": "Small differences in the predicted probabilities do not change the issues, unless a comparison is nearly tied", "statement": "Let two matrices of predicted probabilities differ by at most d in every entry. Thresholds and quality scores then differ by at most d. If in addition no probability of the first is within 2d of the threshold of its class (less the tolerance 1e-6), no class is ahead of a given label by the tolerance up to 2d, and the most likely class leads by more than 2d wherever two thresholds are reached, then num_label_issues, the confident joint and the estimated joint are exactly equal, and find_label_issues returns the same mask: always for confident_learning and predicted_neq_given, and for the filters that sort when the sorted values are more than 2d (4d for margins) apart. A lead equal to the tolerance can be decided by one part in 10^9.", "quantifier": "all datasets, pairs of prediction matrices, distances d, filters, options (one process) and sorting orders", "why_tests_cant": "results must not depend on rounding errors of the model that produced the probabilities; the comparisons that could flip are spread over thresholds, argmax, tolerances, calibration and sorting, and a test perturbs one matrix at most", "anchors": ["cleanlab/filter.py:57-450", "cleanlab/count.py:404-612", "cleanlab/count.py:1407-1458", "cleanlab/count.py:329-399", "cleanlab/rank.py:25-130"]}
{"id": "C135", "title": "Less agreement with the given labels never makes issues disappear", "statement": "The default filter flags exactly the examples whose given label is clearly beaten (by more than 1e-6) and for which some other class reaches its threshold. Hence, if predictions change so that given labels get no more and all other classes no less probability (for one example or for many), every example flagged by confident_learning or predicted_neq_given stays flagged, including those whose own predictions did not change, num_label_issues does not fall and no self_confidence or normalized_margin score rises. The low-score filters do not have this property: an example that gets worse can push another one out of the list.", "quantifier": "all datasets, all pairs of prediction matrices ordered as described, all options and sorting orders", "why_tests_cant": "thresholds are averages over all examples, and an example is counted by a case distinction on how many thresholds it reaches; that no combination of these lets an issue disappear is a statement about all pairs of inputs", "anchors": ["cleanlab/filter.py:57-450", "cleanlab/count.py:404-612", "cleanlab/count.py:1407-1458", "cleanlab/rank.py:25-130"]}
{"id": "C136", "title": "A class that no example is labelled with does not matter", "statement": "Using a model that knows one class more than occurs among the labels gives the missing class the threshold 2 and leaves the thresholds of the other classes as they were. As long as the additional class is nowhere likelier than the given label, num_label_issues, the issues returned by confident_learning, predicted_neq_given and low_self_confidence and the self_confidence scores are the same with and without its column, and so are the normalized margins where some other class is at least as likely as the additional one. Where the additional class is likelier than the given label, even the default filter can flag an example it did not flag without the column.", "quantifier": "all datasets, all values of the additional column, all options and sorting orders", "why_tests_cant": "pretrained models often have more classes than a dataset uses; what a missing class does to averages over no examples, argmax and the confident joint is decided in several functions, and a test adds one column to one matrix", "anchors": ["cleanlab/count.py:404-612", "cleanlab/count.py:1407-1458", "cleanlab/filter.py:57-450", "cleanlab/rank.py:25-130"]}
{"id": "C137", "title": "What the object-detection search finds and what it leaves alone", "statement": "An image whose annotation agrees with the predictions (every confident prediction overlaps a given box, every given box with a confident overlapping prediction of its class has one of overlap above 2/9, no confident prediction of another class overlaps a given box by 7/9 or more, no conflicting boxes) is not flagged, whatever the other images are. A confident prediction where nothing is annotated flags the image when the mean average precision of its class is at least 1/2 (1/4 when the image has no box of the class). A given box of which all confident predictions of its class miss most, and a given box matched by a confident prediction of another class, flag the image when their scores are below a fifth of the mean average precision; for swapped boxes this needs a pair of a given and a predicted box of little similarity somewhere in the data set.", "quantifier": "all datasets of annotated images, predictions, distance functions with values in [0,1] and sorting orders", "why_tests_cant": "whether an image is flagged depends on averages of precision over ten thresholds, on all boxes of all images through the least similarity, and on three kinds of scores; tests look at one set of boxes", "anchors": ["cleanlab/object_detection/filter.py:100-242", "cleanlab/object_detection/rank.py:407-973"]}
{"id": "C138", "title": "The order of multi-label examples, sentences and batches, and the numbering of multi-label classes, do not matter", "statement": "Reordering the examples of a multi-label data set reorders the mask of find_label_issues (when no two examples are tied in a one-vs-rest problem); renumbering the classes does not change it. Reordering the sentences of a token-classification data set reports the same tokens under the new sentence numbers. The batched search on shuffled data, with another batch size and other worker processes, flags the same examples when the scores are pairwise different.", "quantifier": "all data sets, permutations of examples, sentences and classes, filters (other than low_* for multi-label), batch sizes and schedules", "why_tests_cant": "a test would have to try all permutations of all data sets; ties decide differently (C138_batched_tied_refuted)", "anchors": ["cleanlab/multilabel_classification/filter.py:13-303", "cleanlab/token_classification/filter.py:15-101", "cleanlab/experimental/label_issues_batched.py:180-330"]}
{"id": "C139", "title": "Cross-validated predicted probabilities for multi-label data", "statement": "get_cross_validated_multilabel_pred_probs returns one row per example in the order of the data, predicted by a model fitted on the training part of the split that holds the example out; the splitter is given one number per set of classes (equal numbers exactly for equal sets, in lexicographic order, without gaps), so stratification is by whole label sets; with a splitter that does not look at labels, an example's own label has no influence on its own predicted probabilities; splits whose test sets overlap or leave out examples are rejected. multilabel_py returns for every class the fractions of examples without and with it, which add up to 1.", "quantifier": "all feature values, label matrices, splitters and classifiers", "why_tests_cant": "every splitter and every classifier would have to be tried; leakage of the own label is not visible in the output", "anchors": ["cleanlab/internal/multilabel_scorer.py:559-652"]}
{"id": "C140", "title": "Datalab's label check for multi-label data", "statement": "For multi-label data with predicted probabilities, Datalab's label check flags an example exactly when some class looks wrongly annotated for it in the one-vs-rest search with the requested settings, scores it with the aggregated per-class scores (all in [0,1], the summary being their average), reports the given labels unchanged and as predicted labels exactly the classes with probability above one half; a flagged example's predicted labels always differ from its given ones; keyword arguments outside the documented ones, or with value None, have no effect.", "quantifier": "all multi-label data sets, numbers of classes, probabilities, keyword dictionaries, sorting orders and process schedules", "why_tests_cant": "The flags come from one search per class with pools of processes, the predicted labels from thresholding, and the two use different comparisons; that they never contradict each other holds for all inputs or it does not, and tests only use a few small tables.", "anchors": ["cleanlab/datalab/internal/issue_manager/multilabel/label.py:52-136", "cleanlab/multilabel_classification/filter.py:13-153", "cleanlab/multilabel_classification/rank.py:53-121"]}
{"id": "C141", "title": "Shuffling the examples of multi-annotator data shuffles the results and nothing else", "statement": "Reordering the rows of labels_multiannotator together with the rows of pred_probs (of every model) reorders the consensus labels, their quality scores, the annotator agreement and the posterior probabilities of get_label_quality_multiannotator and of its ensemble version, and the scores of get_active_learning_scores for labelled examples; the model weights, the annotator weights, every annotator's quality, agreement, worst class and number of labels, and the scores of unlabelled examples do not change. Ties are broken alike, except that a choice left to numpy's random generator follows the order of the rows.", "quantifier": "every annotation table, every permutation of its rows, every number of classes, annotators and models, every value of the predicted probabilities", "why_tests_cant": "A test can only shuffle particular tables; that no tie-break, weight or average depends on the order of the rows is a statement about all of them.", "anchors": ["cleanlab/multiannotator.py:46-348 get_label_quality_multiannotator", "cleanlab/multiannotator.py:351-561 get_label_quality_multiannotator_ensemble", "cleanlab/multiannotator.py:564-726 get_active_learning_scores", "cleanlab/multiannotator.py:897-1060 get_majority_vote_label"]}
{"id": "C142", "title": "The multi-label health summary is consistent", "statement": "On multi-label data where every class is present on some examples and absent from others, multilabel_health_summary(labels, pred_probs) returns (unless a worker pool never comes back) three parts that agree with each other and with find_multilabel_issues_per_class: score * N = N - B where B counts the examples flagged for at least one class; for every class the two counts of the class table are the two counts of the table of common issues and count the flagged examples with and without the class; each class has at most B issues and B is at most the sum over the classes. labels=None always raises ValueError. The class table agrees with the other parts also when confident_joint is given, and 'Label Noise' is relative to the examples labelled with the class.", "quantifier": "all label sets, probabilities, numbers of classes, worker counts and pool schedules", "why_tests_cant": "A test compares the parts on one dataset; agreement for all data, worker counts and schedules needs a proof, and the tests never pass a confident_joint to the summary.", "anchors": ["cleanlab/multilabel_classification/dataset.py:100-326"]}
{"id": "C143", "title": "Ensembles of models in multi-annotator data", "statement": "get_label_quality_multiannotator_ensemble with a single model returns what get_label_quality_multiannotator returns for that model; listing the models in another order returns the same consensus labels, quality scores, agreements, posteriors, annotator weights and annotator statistics, and the model weights in that order; a model whose predictions contradict the final consensus labels less often (on examples with several annotations) has at least as large a weight.", "quantifier": "all annotation tables, ensembles, orders of the models and random draws", "why_tests_cant": "Tests run a fixed ensemble once; invariance under every permutation and the monotone relation between errors and weights quantify over all data.", "anchors": ["cleanlab/multiannotator.py:351-561", "cleanlab/multiannotator.py:1527-1638"]}
{"id": "C144", "title": "Shuffling the examples shuffles the results of Datalab's checks", "statement": "If the examples of a data set are put into another order, together with their labels, predicted probabilities, features and neighbour graph (renumbered accordingly), then the class imbalance, null, data valuation, near duplicate and (predicted-probability) outlier checks give every example the same flag and the same score as before, near-duplicate sets name the same examples, and the summary scores are unchanged. The underperforming group check gives every example the same score, and the same flag whenever the set of cluster ids is visited in the same order; the visiting order of a Python set can depend on the order of the examples, and then the flagged group can change.", "quantifier": "for all data sets, all permutations of their examples, all neighbour graphs and all parameter values", "why_tests_cant": "there are n! orders of n examples; a test tries a few on one data set, and a dependence on the order (tie handling, the two-pass collection of near duplicates, the loop over clusters) shows only on special data", "anchors": ["cleanlab/datalab/internal/issue_manager/imbalance.py:41-69", "cleanlab/datalab/internal/issue_manager/null.py:35-70", "cleanlab/datalab/internal/issue_manager/underperforming_group.py:79-227", "cleanlab/data_valuation.py:39-127", "cleanlab/datalab/internal/issue_manager/duplicate.py:52-120", "cleanlab/datalab/internal/issue_manager/outlier.py:152-160"]}
{"id": "C145", "title": "The order of the images and boxes of object-detection data does not matter", "statement": "If the images of an object-detection data set are listed in another order, the boxes of each image are listed in another order, and the coordinates of an image are moved or mirrored, every image keeps its label quality score. If only the order of the images changes and no two boxes predicted for one class have the same probability, the average precision of every class is unchanged and the images flagged by find_label_issues are the same. With tied probabilities the flagged images can depend on the order of the images.", "quantifier": "for all annotations and predictions of any number of images, boxes and classes, all orders, all moves that keep overlaps and centre distances, all aggregation weights", "why_tests_cant": "a test compares one order of one data set; the invariance involves the minimum similarity over the whole data set, argmax tie handling and softmin pooling, and its failure (tied probabilities) shows only on special data", "anchors": ["cleanlab/object_detection/rank.py:50-201", "cleanlab/object_detection/rank.py:407-425", "cleanlab/object_detection/rank.py:555-608", "cleanlab/object_detection/rank.py:690-746", "cleanlab/object_detection/rank.py:825-889", "cleanlab/object_detection/filter.py:100-163", "cleanlab/object_detection/filter.py:245-298"]}
{"id": "C146", "title": "The unit of measurement does not matter", "statement": "Express all features in another unit, so that every distance is multiplied by the same positive number. Datalab's near-duplicate check reports the same sets, flags and scores, its outlier check the same flags and scores, and an OutOfDistribution estimator fitted and applied in the new unit gives every training and test example the same score. The only exception is data whose typical distances are below 1e-6 in one of the units.", "quantifier": "For all neighbour graphs, thresholds, temperatures, positive factors, and backends whose distances scale.", "why_tests_cant": "Any test uses one data set and one unit; whether a constant hidden in the code (a floor, a tolerance) decides for some data in some unit needs an argument about all distances and all factors.", "anchors": ["cleanlab/datalab/internal/issue_manager/duplicate.py", "cleanlab/datalab/internal/issue_manager/outlier.py", "cleanlab/outlier.py", "cleanlab/internal/outlier.py"]}
{"id": "C147", "title": "How tokens are divided into sentences does not matter", "statement": "Divide the same sequence of labelled tokens into sentences in another way. token_classification.filter.find_label_issues reports the same tokens in the same order (at their new positions) or raises the same error, get_label_quality_scores gives every token the same score, and common_label_issues and filter_by_token summarise the issues identically.", "quantifier": "For all texts, all pairs of divisions into sentences (also with empty sentences for the issues), all filters, scores, and pool schedules.", "why_tests_cant": "A test can compare two divisions of one text; that no division matters needs an argument about the translation of positions for all lengths.", "anchors": ["cleanlab/token_classification/filter.py", "cleanlab/token_classification/rank.py", "cleanlab/token_classification/summary.py"]}
{"id": "C148", "title": "Repeating the checks of a Datalab and changing their order", "statement": "Run several neighbour-based checks on the same features, the first of which asks for the largest number of neighbours. Running all of them again (any number of times, in one or in several find_issues calls) makes every check work on the same neighbour graph as before and leaves the stored statistics unchanged, the order of the other checks does not matter, and the result of a check does not depend on which others are run. Without that condition it does: a check silently works on a larger graph left by a later check of an earlier call.", "quantifier": "For all features, metrics, sequences of checks, numbers of neighbours and repetitions, and whichever checks fail.", "why_tests_cant": "Tests run a fixed sequence of checks once; the dependence goes through state left in info['statistics'] by arbitrary earlier checks.", "anchors": ["cleanlab/datalab/internal/issue_manager/knn_graph_helpers.py", "cleanlab/datalab/internal/issue_manager/outlier.py", "cleanlab/datalab/internal/issue_manager/duplicate.py", "cleanlab/datalab/internal/issue_manager/noniid.py", "cleanlab/datalab/internal/issue_manager/underperforming_group.py", "cleanlab/datalab/internal/issue_manager/data_valuation.py"]}
{"id": "C149", "title": "Identifier columns are found whatever container the features come in", "statement": "Datalab's identifier-column check gives the same result for a table handed over as a DataFrame, as a dict of columns and as a list of columns, and for a table of integers also as a numpy array. A column that numbers the rows (consecutive integers in any order, from any start) is always found, and the check then has score 0. Unsupported containers are rejected with ValueError. Not so: a column of zeros and ones is reported although it numbers nothing, numpy arrays of another than integer type are never searched, and a list of rows is read as a list of columns.", "quantifier": "For all tables of any number of rows and columns, all containers.", "why_tests_cant": "Tests try some tables in some containers; that the container never matters and that no numbering is missed are statements about all tables.", "anchors": ["cleanlab/datalab/internal/issue_manager/identifier_column.py"]}
{"id": "C150", "title": "The clusters behind Datalab's underperforming-group check", "statement": "The check hands DBSCAN exactly the clustering_kwargs it knows and that are not None, always with the metric 'precomputed' on the neighbour graph. Letting the check cluster the data gives the same flags, scores, summary and cluster statistics as handing it those clusters as cluster_ids; the nearest neighbours recorded are the first ones of the graph, and n_clusters counts the clusters that are neither noise nor too small. Labels that are not an array raise TypeError. The parameters recorded in the info are not those the clustering was run with.", "quantifier": "For all keyword arguments, neighbour graphs, clustering functions, cluster ids, labels and probabilities.", "why_tests_cant": "Tests run DBSCAN on one data set with a few arguments; which arguments reach it and that the two ways of supplying clusters agree are statements about all of them.", "anchors": ["cleanlab/datalab/internal/issue_manager/underperforming_group.py"]}
{"id": "C151", "title": "The numbering of the classes of multi-annotator data does not matter", "statement": "Renumbering the classes of a table of annotations (and moving the columns of the predicted probabilities along) renumbers the majority-vote labels and the consensus labels in the same way, moves the columns of the posterior probabilities along, and changes no consensus quality, no annotator agreement, no model or annotator weight, none of the numbers in the annotator statistics (the worst class is renumbered) and no active learning score, provided no majority vote is left to a random draw and no row of predicted probabilities attains its maximum twice. Each of these provisos is needed.", "quantifier": "every table of annotations, number of annotators and classes, permutation of the class numbers, predicted probabilities, ensemble, consensus method and state of the random generator", "why_tests_cant": "A test can compare a few tables under a few renumberings; that no tie-breaking rule, argmax or ordering inside the pipeline depends on the class numbers has to be shown for all of them at once.", "anchors": ["cleanlab/multiannotator.py:46-348", "cleanlab/multiannotator.py:351-561", "cleanlab/multiannotator.py:564-726", "cleanlab/multiannotator.py:897-1060", "cleanlab/multiannotator.py:1181-1273", "cleanlab/multiannotator.py:1394-1506"]}
{"id": "C152", "title": "The numbering of the classes does not matter outside confident learning either", "statement": "Renumbering the classes, consistently in the given labels and in the columns of the predicted probabilities, changes nothing a user sees: an out-of-distribution estimator returns the same scores after every history of fit/score calls; Datalab's class imbalance, data valuation and underperforming group checks report the same; the probabilities the label check derives from features are the renumbered ones; label quality scores (also adjusted ones), the batched search, token classification (issues and scores) and segmentation without downsampling (flagged pixels and scores) are the same. Not so for class imbalance when classes tie for rarest or a class has no examples, and not so for segmentation with downsampling, which averages label numbers.", "quantifier": "for all numbers of classes, all permutations of them, all labels, probabilities, neighbours, cluster assignments, batch sizes, process schedules and call histories (with no ties where an order or an argmax decides)", "why_tests_cant": "A test compares one renumbering of one dataset in one module; the claim ranges over all permutations and over all class-based checks, and it is false exactly at boundary cases (ties, absent classes, averaged label numbers) that ordinary test data does not contain.", "anchors": ["cleanlab/outlier.py:250-380", "cleanlab/datalab/internal/issue_manager/imbalance.py:41-69", "cleanlab/datalab/internal/issue_manager/data_valuation.py", "cleanlab/datalab/internal/issue_manager/underperforming_group.py", "cleanlab/rank.py:35-160", "cleanlab/experimental/label_issues_batched.py", "cleanlab/token_classification/filter.py", "cleanlab/segmentation/filter.py:14-208"]}
{"id": "C153", "title": "The numbers CROWDLAB returns are the ones its definition prescribes", "statement": "get_label_quality_multiannotator (and its ensemble version) returns: for every annotator the weight max(1 - (1 - r)/e, 1e-6), r being the share of other annotators' labels on the same examples which agree with theirs (who never shared an example gets the average of the others) and e the share of the examples with several labels whose consensus is not the commonest consensus class (at least 1e-6); for every model the weight max(1 - m/e, 1e-6) * sqrt(average number of labels per example), m being the share of those examples where its most probable class is not the consensus; as posterior the weighted average of the models' probabilities and of the votes, where a label counts cl for its class and (1 - cl)/(K - 1) for every other, cl being the average share of labels equal to the consensus; as consensus quality the posterior of the consensus label. An annotator's quality is the average of the mean posterior of their labels and of how often they agree with the consensus on shared examples, weighted by the models' share of the total weight, and missing exactly if they share no example. The active learning score averages the quality (or top probability) and 1/K, weighted by the present weights and by the average annotator weight.", "quantifier": "for every annotation table, number of annotators and classes, predicted probabilities of one or several models, consensus method and positive square root function", "why_tests_cant": "The tests compare a few outputs with stored numbers and with loose bounds; a change to a weight, an off-by-one in the agreement or a wrong denominator would leave all ranges and orders intact", "anchors": ["cleanlab/multiannotator.py:1276-1506", "cleanlab/multiannotator.py:1527-1638", "cleanlab/multiannotator.py:1722-1836", "cleanlab/multiannotator.py:684-726"]}
{"id": "C154", "title": "The correlation report of an image audit names the right properties and shows the right images", "statement": "lab.report() on image data prints the correlation section exactly when correlations were computed, the threshold is not false for Python and some property scores below it. It then lists exactly the properties below the threshold, in the stored order, with the stored scores, under the name of the score column without \"_score\" (which is the name of the check unless that contains \"_score\" itself), and for each shows the first image with the lowest and the first image with the highest score of that column in the table of issues. After an audit of labelled images whose checks completed, the section never fails and is computed from the scores of that audit.", "quantifier": "for every stored state of a Datalab (any number of properties, images, columns), every threshold, every behaviour of CleanVision and of the classifier scored on a property, every combination of requested checks", "why_tests_cant": "The report only prints, so tests compare a few printed lines for one data set; that the pair of images is the extreme pair for every table, that the columns looked up exist after every audit, and that no property is left out, concern all states.", "anchors": ["cleanlab/datalab/internal/adapter/imagelab.py:186-308", "cleanlab/datalab/internal/adapter/imagelab.py:413-431", "cleanlab/datalab/internal/spurious_correlation.py:18-46"]}
{"id": "C155", "title": "Where a pixel lies does not matter in segmentation", "statement": "Without downsampling, putting the pixels of a data set elsewhere (transposing or mirroring the images, changing their order, cutting them into tiles: any one-to-one rearrangement into images of any number and size) makes segmentation.filter.find_label_issues flag exactly the same pixels, for all batch sizes, processes and sorting algorithms, provided no two pixels give their label the same probability; pixel scores, filter_by_class and the counts of common_label_issues move with the pixels. With downsampling the order of the images does not matter, and the image scores of num_pixel_issues move with the images.", "quantifier": "all stacks of images, all sizes and numbers of classes, all one-to-one rearrangements, all batch sizes, worker schedules, sorting algorithms, downsampling factors", "why_tests_cant": "A test can compare a few rearrangements of one data set; independence of every rearrangement together with every batching and schedule is a statement about all of them.", "anchors": ["cleanlab/segmentation/filter.py:14-218", "cleanlab/segmentation/rank.py:84-130", "cleanlab/segmentation/summary.py:159-308"]}
{"id": "C156", "title": "The numbering of the classes of object-detection data does not matter", "statement": "If the classes of an object-detection data set are numbered differently, in the given labels and in the per-class arrays of the predictions, every image keeps its label quality score, every given box its bad-location and swap score, every predicted box its overlooked score, every class its average precision, and find_label_issues returns the same mask and the same ranked indices. Nothing has to be assumed about ties.", "quantifier": "for all annotations and predictions of any number of images, boxes and classes, all permutations of the class numbers, all parameters alpha in [0,1], thresholds, aggregation weights and argsort functions", "why_tests_cant": "a test compares one data set under one renumbering; the scores take minima, argmaxima and pooled sums over boxes listed class by class, so the renumbering changes the order of every intermediate array and only a proof covers all permutations and tie situations", "anchors": ["cleanlab/object_detection/rank.py:50-201", "cleanlab/object_detection/rank.py:263-274", "cleanlab/object_detection/rank.py:407-425", "cleanlab/object_detection/rank.py:555-608", "cleanlab/object_detection/rank.py:690-746", "cleanlab/object_detection/rank.py:825-889", "cleanlab/object_detection/filter.py:100-178", "cleanlab/object_detection/filter.py:245-405"]}
{"id": "C157", "title": "Scoring a data set part by part gives the same scores", "statement": "Split the examples into two parts, score each part on its own, and put the scores together: they are the scores of the whole data set. This holds for the unadjusted label quality scores of classification data (and the whole is accepted exactly when both non-empty parts are), of ensembles with equal or given weights, of multi-label data (per class and overall), of sentences and tokens, of pixels, for regression residual scores, for the out-of-distribution scores a fitted estimator gives to new data, and for the bad-location scores of object detection; for the image scores of object detection it holds when both parts have the same least box similarity. With adjust_pred_probs, accuracy weights, or overlooked-box scores an example's score depends on the other examples, and multi-label parts, ensemble parts with a single class and single regression examples can be rejected although the whole is accepted.", "quantifier": "for all labels, predictions, numbers of examples and classes, ways to split the examples, weights and fitted estimators", "why_tests_cant": "A test scores one data set; that no score depends on the other examples of the batch is a statement about every batch and every way of splitting it.", "anchors": ["cleanlab/rank.py:33-366", "cleanlab/internal/multilabel_scorer.py:342-553", "cleanlab/token_classification/rank.py:15-132", "cleanlab/segmentation/rank.py:84-130", "cleanlab/regression/rank.py:22-119", "cleanlab/outlier.py:224-277", "cleanlab/object_detection/rank.py:50-201"]}
{"id": "C158", "title": "The confusion-matrix baseline finds what it says, and calibration does nothing", "statement": "filter.find_label_issues_using_argmax_confusion_matrix gives the same result with calibrate=True and calibrate=False, on all data. With a filter that does not prune it is find_label_issues. With a pruning filter it answers whenever every class is given to and predicted for some example, and raises ValueError or IndexError otherwise (if at least two classes are predicted). prune_by_class then marks in every class as many of the least likely examples as have another predicted class (always leaving one). If every class has an example whose prediction agrees with its label and the disagreeing examples are the extreme ones, and always when there are two classes and the filter is the default one, the result is that of predicted_neq_given.", "quantifier": "for all valid labels and predicted probabilities of any number of examples and classes, all filters, both values of calibrate, all sorting algorithms and worker schedules", "why_tests_cant": "A test runs the baseline on one data set with its default arguments; that one of its arguments never has an effect, and that it fails for every data set with an unpredicted class, are statements about all data sets.", "anchors": ["cleanlab/filter.py:702-759", "cleanlab/internal/util.py:274-311", "cleanlab/count.py:340-398"]}
{"id": "C159", "title": "Repeating the examples repeats the results of the other methods", "statement": "If every example is passed c times, in any order, then every copy gets what the example got: the consensus label, its quality, the agreement, the posterior and the active-learning scores of multi-annotator data (the weights do not change, and of an annotator's statistics only the number of examples labelled changes, which is multiplied by c), label quality scores with or without adjust_pred_probs, Datalab's class-imbalance check, multi-label issues found by confident_learning or predicted_neq_given, and the image scores of object-detection data. A tie that the majority vote leaves to chance may be broken differently for two copies.", "quantifier": "every data set, every c >= 1, every order of the copies, every number of classes, annotators and models", "why_tests_cant": "That no weight, threshold or average depends on the size of the data set apart from the proportions in it is a statement about all data sets and all c.", "anchors": ["cleanlab/multiannotator.py:46-348 get_label_quality_multiannotator", "cleanlab/multiannotator.py:351-561 get_label_quality_multiannotator_ensemble", "cleanlab/multiannotator.py:564-726 get_active_learning_scores", "cleanlab/rank.py:33-155 get_label_quality_scores", "cleanlab/multilabel_classification/filter.py:13-153 find_label_issues", "cleanlab/object_detection/rank.py:50-123 get_label_quality_scores", "cleanlab/datalab/internal/issue_manager/imbalance.py:41-69 find_issues"]}
{"id": "C160", "title": "What the report says about missing values", "statement": "After the null check has run on a table of features, the section of Datalab's report about null values gives the number of rows in which all values are missing (which is also the number of examples with the issue) and the number of rows in which some but not all are missing, each mentioned only if it is not 0. The report contains the section if and only if all issues are to be shown or some row lacks all values. Consequence (finding): without show_all_issues, a table in which every row lacks some values but none lacks all is reported as free of issues, and the note asking the user to address partially missing rows is not shown.", "quantifier": "every table with at least one column, every history of checks, every verbosity and number of examples", "why_tests_cant": "Tests look at particular tables; that the counts partition the rows and when the note is shown at all depends on every pattern of missing values.", "anchors": ["cleanlab/datalab/internal/issue_manager/null.py:35-70 find_issues", "cleanlab/datalab/internal/issue_manager/null.py:148-209 report", "cleanlab/datalab/internal/report.py:86-144 get_report"]}
{"id": "C161", "title": "Data-valuation scores approximate the Shapley value within 1/k", "statement": "data_shapley_knn returns for every example a score s such that 2*s - 1 differs by at most 1/k from the exact Shapley value of the example (the gain in accuracy from adding it to the training set, averaged over all orders in which the training set can be built up) for k-nearest-neighbour classification of the data set with every example left out of its own neighbours. More exactly, 2*s - 1 is the average, over the examples to classify, of the example's Shapley value minus that of the k-th nearest neighbour if it is one of the k nearest, and 0 otherwise. Within that error the sign and the order can differ from those of the exact values (finding).", "quantifier": "every data set, every neighbour graph with at least k neighbours, every k >= 1, every order of the examples beyond the k nearest", "why_tests_cant": "The exact value is an average over all n! orders of the examples; tests can compare it with the approximation for a few examples only.", "anchors": ["cleanlab/data_valuation.py:14-51 _knn_shapley_score", "cleanlab/data_valuation.py:54-127 data_shapley_knn"]}
{"id": "C162", "title": "Sum-preserving rounding gives the closest integers", "statement": "The integers returned by round_preserving_sum are at least as close to the given numbers as any other integers with the same sum: for every convex cost of an error (so for the total absolute error, the total squared error and the largest error) no other choice is cheaper. The same holds for each row of round_preserving_row_totals, and each row of the calibrated confident joint is the closest row of integers to the scaled counts.", "quantifier": "all lists of numbers of any length, all convex costs, all other integer lists with the same sum, every argsort; all confident joints and labels for the calibration", "why_tests_cant": "Optimality compares the result with infinitely many alternatives under infinitely many costs, for inputs of any length; a test compares with a few.", "anchors": ["cleanlab/internal/util.py:194-248", "cleanlab/count.py:221-291"]}
{"id": "C163", "title": "The batched search agrees with the standard one", "statement": "The number of issues estimated batch by batch (LabelInspector.get_num_issues) equals count.num_label_issues on the whole data set (documented: up to 1 because of rounding), and find_label_issues_batched flags the examples that filter.find_label_issues flags with filter_by low_self_confidence / low_normalized_margin.", "quantifier": "all data sets, numbers of classes, batchings, numbers of worker processes and schedules, both scores", "why_tests_cant": "The two implementations use different rules per example (the batched one only looks at the most likely class); whether and when they agree is a statement about all data sets.", "anchors": ["cleanlab/experimental/label_issues_batched.py:43-227", "cleanlab/experimental/label_issues_batched.py:400-485", "cleanlab/count.py:50-173", "cleanlab/filter.py:311-430"]}
{"id": "C164", "title": "The calibrated number of issues is at least the uncalibrated one", "statement": "num_label_issues documents that with estimation_method='off_diagonal_calibrated' the \"number will always be equal to or greater than\" the one of 'off_diagonal'. It is, as long as every class that occurs has at least one example that is not confidently counted into another class; in general it falls short by at most one for each class whose examples are all confidently counted elsewhere.", "quantifier": "all datasets of any size with at least two classes among the labels, all numbers of classes, all argsort tie-breakings", "why_tests_cant": "The comparison is between two estimates that go through different arithmetic (counting and masking against scaling and rounding); the failing class of datasets (every example of one class confidently another) does not occur in the test data.", "anchors": ["cleanlab/count.py:81-84", "cleanlab/count.py:107-173", "cleanlab/count.py:221-292"]}
{"id": "C165", "title": "The softmin temperature moves the overall score between the lowest and the average score", "statement": "The overall score of a sentence, multi-label example, segmentation image or object-detection image pooled with softmin grows with the temperature. It is within (n-1)*T of the lowest of the n scores and, for scores between lo and hi, within (hi-lo)^2/T below their average, so low temperatures converge to the minimum and high ones to the average, as documented.", "quantifier": "all non-empty score lists of any length, all temperatures (clipped below by the library's epsilon), exact real arithmetic", "why_tests_cant": "Convergence and monotonicity are statements about all temperatures and all score lists; tests compare a few lists at a few temperatures.", "anchors": ["cleanlab/token_classification/rank.py:231-274", "cleanlab/internal/numerics.py:7-39", "cleanlab/internal/multilabel_scorer.py:206-233", "cleanlab/internal/object_detection_utils.py:25-29", "cleanlab/segmentation/rank.py:189-231"]}
{"id": "C166", "title": "Improving one item never lowers the overall score", "statement": "When the label quality score of one token (class, pixel, box) rises and the others stay the same, the softmin-pooled score of the sentence (example, image) does not fall. This holds if the item's score was not above the overall score, if it stays within one temperature above the overall score, and for all items at once if the temperature is at least 1; an item at least one temperature above the overall score has the opposite effect.", "quantifier": "all score lists of any length, all positions, all temperatures, exact real arithmetic", "why_tests_cant": "Tests use fixed score lists and do not perturb single entries; the wrong direction shows only for items well above the overall score.", "anchors": ["cleanlab/token_classification/rank.py:231-274", "cleanlab/internal/numerics.py:7-39", "cleanlab/internal/multilabel_scorer.py:206-233", "cleanlab/internal/object_detection_utils.py:25-29", "cleanlab/segmentation/rank.py:189-231"]}
{"id": "C167", "title": "Systematic over- or underconfidence in a class does not matter", "statement": "If a model's probabilities for a class are stretched by a positive factor and shifted by a constant, the same for all examples (for instance by averaging every prediction with a fixed distribution), then as long as no example is confident for two classes the confident joint, the indices counted off its diagonal, the estimated joint distribution and the calibrated number of issues are unchanged, and the confident_learning filter flags the same examples among those whose label is not the most likely class before and after.", "quantifier": "all datasets of any size and number of classes, all positive factors and all shifts per class that keep probabilities in [0,1] and given labels at 2e-6 or more, probabilities not within the 1e-6 tolerance below a threshold (not needed for pure shifts)", "why_tests_cant": "Invariance under a family of transformations of the predictions for all data sets; tests compare single datasets with stored outputs.", "anchors": ["cleanlab/count.py:445-622", "cleanlab/count.py:329-399", "cleanlab/count.py:1407-1489", "cleanlab/count.py:107-173", "cleanlab/filter.py:311-430"]}
{"id": "C168", "title": "Class imbalance does not matter to confident learning", "statement": "Take a data set and include every example several times, the number of copies depending on the class it is labelled with (over-sampling rare classes, in any order). The confident thresholds do not change; row i of the uncalibrated confident joint is multiplied by the number of copies of class i (a diagonal cell that no example was counted in is 1 before and after); and find_label_issues with filter_by='confident_learning' flags exactly the copies of the examples it flagged before. The label quality score of a copy is that of the example, also with adjust_pred_probs. The filters prune_by_class and prune_by_noise_rate do not have this property.", "quantifier": "every data set, every number of classes, every number of copies (>= 1) per class, every order of the copies", "why_tests_cant": "That frequencies enter no threshold is a statement about all data sets and all over-sampling factors; a test checks one pair of data sets.", "anchors": ["cleanlab/count.py:1407-1489", "cleanlab/count.py:445-622", "cleanlab/filter.py:311-430"]}
{"id": "C169", "title": "Aggregation weights of object-detection image scores", "statement": "The score get_label_quality_scores gives an image lies between the lowest and the highest of its three pooled subtype scores (overlooked, badly located, swapped; subtypes of weight 0 do not count) and equals one of them if that has weight 1. An image that is no better in any weighted subtype does not score higher, and scores lower if it is worse in one. Moving weight to a subtype lowers the score of exactly the images whose score for it is below that of the subtype the weight is taken from, and images that are relatively worse in it move forward in the ranking, as the documentation of aggregation_weights promises.", "quantifier": "all images, all valid weights, all amounts of weight moved, up to the 1e-100 added before the logarithm, exact real arithmetic", "why_tests_cant": "Tests compare a few images at a few weights; the effect of a change of the weights on the ranking of all images is a statement about a weighted geometric mean over all inputs.", "anchors": ["cleanlab/object_detection/rank.py:50-125", "cleanlab/object_detection/rank.py:512-552", "cleanlab/object_detection/rank.py:976-1110"]}
{"id": "C170", "title": "One example has little influence on the others", "statement": "Replacing one example (its label, its predicted probabilities, or both) moves the confident threshold of its old and of its new class by at most one over the number of examples of the class, and no other threshold. With filter_by='confident_learning' another example can only become or cease to be an issue if its probability for one of these two classes is within that distance of the threshold, and the estimated number of issues changes by at most one plus the number of such examples.", "quantifier": "all datasets of any size and number of classes, all examples, all replacements after which the same classes occur among the labels", "why_tests_cant": "A sensitivity bound for all datasets and all replacements; tests compare results on fixed datasets.", "anchors": ["cleanlab/count.py:1407-1489", "cleanlab/count.py:445-622", "cleanlab/count.py:107-173", "cleanlab/filter.py:311-430"]}
{"id": "C171", "title": "Counting classes", "statement": "value_counts(labels, num_classes=K) of integer labels 0..K-1 returns K numbers, the k-th being how often class k occurs (0 for classes without labels), which add up to the number of labels (of all label lists if multi_label); without num_classes it returns one positive count per class that occurs, in sorted order; names are counted in sorted order and padded with zeros. get_missing_classes returns, in increasing order, exactly the classes below K that no example has; get_unique_classes exactly the classes that occur; get_num_classes takes the columns of pred_probs, else the size of a square matrix, else the number of different labels, and raises ValueError otherwise. A label of K or more raises ValueError unless the number of different labels happens to be K.", "quantifier": "all label lists (of integers, of other ordered values, of lists), all K, all combinations of options", "why_tests_cant": "The early exit of value_counts depends on a coincidence between the number of different labels and K, for which a test needs the particular combination; the counts must be right for every subset of missing classes.", "anchors": ["cleanlab/internal/util.py:113-191", "cleanlab/internal/util.py:518-560"]}
{"id": "C172", "title": "Two exclusive classes give the same issues and scores as multi-label data", "statement": "For a binary dataset (every example has exactly one of two classes, predicted probabilities sum to one) the multi-label functions called with each example's one-class list agree with the multi-class functions called with the labels: find_label_issues flags the same examples for filter_by confident_learning and predicted_neq_given, and get_label_quality_scores returns the same scores (the probability of the given label) for both scoring methods and any moving-average weight.", "quantifier": "all binary datasets, probabilities, filter options other than num_to_remove_per_class, sorting behaviours; no example of class 0 with a gap of exactly 1e-6", "why_tests_cant": "the two code paths share little: one-vs-rest splits, complemented probabilities, per-class thresholds and aggregation; tests compare neither", "anchors": ["cleanlab/multilabel_classification/filter.py:36-252", "cleanlab/multilabel_classification/rank.py:38-130", "cleanlab/filter.py:55-482", "cleanlab/rank.py:41-130"]}
{"id": "C173", "title": "Which types of labels, features and predictions are taken", "statement": "Labels may be a list, a 1-d array, a series or a frame of one column: with the same values the outcome of the input check (acceptance or exception) is the same. Scalars, nested or ragged lists, arrays of other dimensions and wider frames raise ValueError; other types TypeError. Without predictions the check passes exactly when the labels are valid and the features (any object) have one example per label, by len or else by shape[0], and their first and last example can be taken by list indexing; with predictions exactly when these are a 2-d numpy array with one row per label, a column for every class and entries between 0 and 1 up to 1e-6. Multi-label data must be a list of lists.", "quantifier": "all containers, nested lists of any depth, shapes, feature objects (any answers to len, shape and the ways of indexing), predictions", "why_tests_cant": "the combinations of container, feature and prediction types are unbounded; tests try a few", "anchors": ["cleanlab/internal/validation.py:13-81", "cleanlab/internal/validation.py:115-212"]}
{"id": "C174", "title": "How method names and aggregator_kwargs of multi-label scores are understood", "statement": "multilabel get_label_quality_scores and get_label_quality_scores_per_class: the method name is one of the three documented names in any mixture of capitals, anything else is a ValueError. aggregator_kwargs=None or {} means the moving average with weight 0.8. A dictionary that asks for the moving average, by name or by function, gives the moving average of the class scores with the dictionary's weight, and all its other entries (axis included) are ignored; softmin is applied with the dictionary's temperature (0.1 if absent); a user's function is called with the matrix of class scores and the other entries, with axis=1. A dictionary without method or with a method that is not callable raises TypeError, one with an unknown name ValueError. The entropy score with adjusted probabilities never returns.", "quantifier": "all method strings (ASCII), dictionaries, functions, datasets", "why_tests_cant": "option dictionaries are open-ended and silently ignored entries show in no test", "anchors": ["cleanlab/internal/multilabel_scorer.py:65-131", "cleanlab/internal/multilabel_scorer.py:236-340", "cleanlab/multilabel_classification/rank.py:37-179"]}
{"id": "C175", "title": "Defining custom checks", "statement": "Deriving a check from IssueManager succeeds exactly if it names itself and any verbosity levels written in it are lists of strings (ValueError for the levels, TypeError for the name otherwise; a name that is only inherited does not count); its scores are then in the column '<name>_score' whatever the class or its ancestors assign, and the report of a check with levels 0, 1, 2, ... shows at each level exactly the entries listed up to it, everything one above the highest, and refuses other levels with ValueError.", "quantifier": "for all class bodies, chains of ancestors, dictionaries of verbosity levels, stored info and requested levels", "why_tests_cant": "A statement about every class users may write; the tests define a handful of classes.", "anchors": ["cleanlab/datalab/internal/issue_manager/issue_manager.py:24-132", "cleanlab/datalab/internal/issue_manager/issue_manager.py:240-288"]}
{"id": "C176", "title": "Data sets without common classes", "statement": "Searching two data sets together that have no class in common (neither among the labels nor, beyond one in a million, in the predicted probabilities) finds exactly the label issues found when each is searched alone, with the default confident_learning filter and with predicted_neq_given; the numbers of issues add up and every class keeps its threshold and its row of the confident joint.", "quantifier": "for all pairs of data sets of any sizes with any number of classes, all argsort tie-breakings", "why_tests_cant": "Two separate runs are compared with a combined run for every pair of data sets; the tests never combine data sets.", "anchors": ["cleanlab/filter.py:66-448", "cleanlab/count.py:445-622", "cleanlab/count.py:1407-1458"]}
{"id": "C177", "title": "Out-of-distribution scores and label quality scores of the same data fit together", "statement": "OutOfDistribution with method 'least_confidence' gives every example at least its self-confidence label quality score (both with or both without adjust_pred_probs). The two are equal exactly for the examples whose normalized-margin label quality is at least 1/2. Without adjustment the scores do not depend on the given labels and are the label quality scores the data set gets when every example is relabelled with a most likely class. On valid data of two or more classes fit_score returns, and score on the same predictions returns the same scores.", "quantifier": "every data set of K classes, every unfitted estimator with that method, both settings of adjust_pred_probs", "why_tests_cant": "Two separate modules compute the numbers; tests check each on a few arrays, never that they stay consistent for all data.", "anchors": ["cleanlab/outlier.py:482-582", "cleanlab/rank.py:464-542", "cleanlab/internal/label_quality_utils.py:11-65"]}
{"id": "C178", "title": "The caution about lost classes names exactly the classes the consensus lost", "statement": "get_majority_vote_label and get_label_quality_multiannotator, called with verbose=True, print the caution exactly if some class given by an annotator is no example's consensus label, and name exactly those classes; with verbose=False nothing is printed. For majority-vote consensus a named class was on no example given more often than every other class, and, as the caution says, the number of classes has been reduced, by the number of classes named.", "quantifier": "every annotation table, all predicted probabilities, both consensus methods, whatever numpy's random choice returns", "why_tests_cant": "A printed message compares two sets computed from the whole table; tests at most check that something is printed once.", "anchors": ["cleanlab/internal/multiannotator_utils.py:235-252", "cleanlab/multiannotator.py:263-269", "cleanlab/multiannotator.py:1052-1058"]}
{"id": "C179", "title": "Only the proportions within the rows of a supplied confident joint matter", "statement": "The calibrated confident joint, estimate_joint and num_label_issues(estimation_method='off_diagonal_custom') give exactly the same result for two confident joints whose corresponding rows are positive multiples of each other: raw counts, percentages or already calibrated counts are interchangeable. Calibrating a calibrated confident joint changes nothing.", "quantifier": "every number of classes, every pair of non-negative matrices with proportional rows (each row with its own factor; rows that are zero or sum to at least 1e-100), every label vector, every argsort depending on values only", "why_tests_cant": "Relates two runs on arbitrary matrices through a normalisation, a second normalisation and a rounding loop; a test compares one matrix with one expected output.", "anchors": ["cleanlab/count.py:221-291", "cleanlab/count.py:329-399", "cleanlab/count.py:152-164", "cleanlab/filter.py:339-356"]}
{"id": "C180", "title": "Which proportions of a confident joint the latent estimates use", "statement": "estimate_latent returns the same class prior, noise matrix and inverse noise matrix for a confident joint and for any positive multiple of it (so for counts and for the joint distribution), with every py_method, converging or not. Without converging, a factor for each given label does not change the inverse noise matrix, nor the prior of py_method='marginal_ps', and a factor for each true label does not change the noise matrix.", "quantifier": "every number of classes, every pair of non-negative proportional matrices whose row and column sums are zero or at least 1e-100, every label vector, every py_method modelled (cnt, marginal, marginal_ps)", "why_tests_cant": "Relates two runs on arbitrary matrices through fifteen rounds of clipping and renormalising; tests only compare one matrix with stored numbers.", "anchors": ["cleanlab/count.py:715-796", "cleanlab/count.py:1331-1404", "cleanlab/internal/latent_algebra.py:66-256"]}
{"id": "C181", "title": "The documented ways of calling the dataset summaries agree", "statement": "rank_classes_by_label_quality and find_overlapping_classes return the same table for labels and pred_probs, for the joint and number of examples estimated from them, for labels and the confident joint, and (overlaps) for the confident joint alone; overall_label_health_score gives one score for the joint and for the confident joint. health_summary is unchanged by passing the confident joint of the same data, and passing it in place of pred_probs changes at most the score. Given labels, only the proportions within the rows of a supplied confident joint matter.", "quantifier": "every labelled data set with predicted probabilities, every number of classes, every argsort", "why_tests_cant": "The three input modes run through different code (estimation, recalibration, plain normalisation, counting by summing); tests exercise one mode at a time.", "anchors": ["cleanlab/dataset.py:16-108", "cleanlab/dataset.py:111-283", "cleanlab/dataset.py:286-358", "cleanlab/dataset.py:361-514", "cleanlab/count.py:329-399"]}
{"id": "C182", "title": "Supplying the confident joint that would have been computed anyway changes nothing", "statement": "find_label_issues(labels, pred_probs, confident_joint=compute_confident_joint(labels, pred_probs)) returns what find_label_issues(labels, pred_probs) returns, as mask or ranked indices, for every filter_by and all other options; estimate_joint likewise, and num_label_issues with 'off_diagonal_custom' gives the number of 'off_diagonal_calibrated'. Filters other than the pruning ones, and the other estimation methods, ignore any supplied confident joint.", "quantifier": "every labelled data set with predicted probabilities, every number of classes, filter, option record, worker schedule and argsort", "why_tests_cant": "Equality of two code paths for all data and all combinations of options; tests pass a confident joint in a few combinations only.", "anchors": ["cleanlab/filter.py:311-420", "cleanlab/count.py:50-173", "cleanlab/count.py:329-399"]}
{"id": "C183", "title": "On multi-label data, supplying the confident joints that would have been computed anyway changes nothing", "statement": "Multi-label find_label_issues with confident_joint=compute_confident_joint(labels, pred_probs, multi_label=True) returns what it returns without confident_joint: the per-class masks, the overall mask (low-memory mode included) and the ranked indices, for every filter_by and all other options. When every class is used, multi-label estimate_joint also returns the same joints with and without it.", "quantifier": "every multi-label data set with predicted probabilities, every number of classes, filter, option record, worker schedule and argsort", "why_tests_cant": "Equality of two code paths through a per-class loop for all data and all combinations of options; tests supply a confident joint in a few combinations only.", "anchors": ["cleanlab/filter.py:453-536", "cleanlab/multilabel_classification/filter.py:156-300", "cleanlab/count.py:402-442"]}
{"id": "C184", "title": "Optional inputs of the noise-matrix algebra are only a speed-up, and its claimed equivalences hold", "statement": "compute_inv_noise_matrix with ps = noise_matrix.dot(py) supplied, and compute_noise_matrix_from_inverse with py = inverse_noise_matrix.dot(ps) supplied, return what they return when it is left out. With py_method 'cnt' the estimated prior is (true label counts / given label counts) * ps, bounded and normalized, as the comment in the code claims, provided no diagonal entry of the confident joint vanishes. compute_ps_py_inv_noise_matrix returns the label frequencies and, when these are exactly what a prior and the noise matrix produce, exactly that prior and Bayes' inverse.", "quantifier": "every number of classes, noise matrix, prior, confident joint and list of labels", "why_tests_cant": "Equalities of rational expressions over all matrices; tests check a few numbers for two and three classes.", "anchors": ["cleanlab/internal/latent_algebra.py:18-113", "cleanlab/internal/latent_algebra.py:116-173", "cleanlab/internal/latent_algebra.py:232-240", "cleanlab/count.py:715-796"]}
{"id": "C185", "title": "The PU-learning score and the compression of label columns", "statement": "estimate_pu_f1 is precision * recall / (2 * share of labelled examples), computed without true labels; times twice that share it lies between the square of the F1 score and the F1 score; it is NaN exactly when nothing is labelled or nothing is predicted positive. compress_int_array, used for the label columns of CleanLearning's table of issues, never changes a value between -num_possible_values and num_possible_values, whatever type it chooses.", "quantifier": "every list of binary labels with predicted probabilities; every array of integers and number of possible values", "why_tests_cant": "Inequalities over all data sets, and values around 2^15 and 2^31 that tests do not try.", "anchors": ["cleanlab/internal/util.py:251-271", "cleanlab/internal/util.py:387-399", "cleanlab/classification.py:928-930"]}
{"id": "C186", "title": "The printed matrices can be read back", "statement": "print_noise_matrix, print_inverse_noise_matrix and print_joint_matrix of a K x K matrix print K + 6 lines. Split at the tabs, entry (i, j), rounded, stands in the line that starts with row i's name and at the position of column j's name in the header; rows are given labels and columns true labels, except for the inverse noise matrix, where it is the other way round; the trace follows. A one-dimensional array of at least two numbers always ends with an IndexError, although the code means to accept it.", "quantifier": "every number of classes, square matrix, number format without tabs, and names without tabs", "why_tests_cant": "Alignment of every entry for all sizes (also ten or more classes, where names get longer); tests only call the functions without looking at the output.", "anchors": ["cleanlab/internal/util.py:314-384"]}
