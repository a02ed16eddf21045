notes = {
"C01": ("proved", "All bin types; LINEAR needs at least two bins, the single-bin failure is C01_single_bin_refuted."),
"C02": ("proved", "Any history of batches, any bin type, good_bins = increasing edges / at least two LINEAR bins."),
"C03": ("proved", "Single batch into an empty histogram is exact."),
"C04": ("partial", "Counts and means proved for every history. The variance clause is false of the code: C04_variance_refuted (welford_variance_calc drops a zero-variance batch); merging is exact when both variances are non-zero."),
"C05": ("proved", ""),
"C06": ("proved", "Stated for what get_impurity_reductions reports after any history of batches."),
"C07": ("proved", "Stated for what get_impurity_reductions reports after one batch."),
"C61": ("proved", "Gini with at least two rows on each side, MSE always. A one-row side gives NaN for Gini: C61_single_row_side_refuted."),
"C68": ("proved", ""),
"C08": ("proved", "Classification (Gini, entropy) and regression (MSE), LINEAR/IDENTITY/RANDOM bins."),
"C09": ("proved", "For IDENTITY bins optimal over every real threshold on every feature; ties go to the first candidate."),
"C10": ("proved", ""),
"C11": ("proved", "Any permutation, any random state and memory contents on either side."),
"C66": ("proved", "All features rescaled at once, each with its own factor; also for IDENTITY bins."),
"C69": ("proved", ""),
"C70": ("proved", ""),
"C12": ("proved", "EXACT and MAB, every draw and memory content; below the threshold min_impurity_reduction (0 by default)."),
"C13": ("proved", "Terminates for any number of arms; at most rows * non-constant features queries; each row is inserted at most once (NoDup sample in C72)."),
"C14": ("proved", "At most 2 * rows * features * bins queries."),
"C15": ("partial", "Proved for more than five candidate edges. False for at most five: C15_few_arms_refuted (the loop never runs and np.empty contents are returned)."),
"C16": ("proved", "With more than five candidate edges, as quantified; also with replacement."),
"C17": ("partial", "False of the code: C17_stops_while_arms_overlap_refuted. What holds instead is C71."),
"C18": ("partial", "Proved without replacement. With replacement the overshoot can be rows per feature (C18_with_replacement_refuted); that larger bound is proved."),
"C19": ("proved", "One batch with any live arm list, and every state of every run (classification)."),
"C71": ("proved", ""),
"C72": ("proved", ""),
"C73": ("proved", ""),
"C20": ("proved", ""),
"C21": ("proved", "Both directions: rows held by a leaf are routed to it, and every training row has such a leaf."),
"C22": ("proved", "Routing for every point that has the tree's features; predict answers (C22_predict_answers) when the class indices are 0..K-1."),
"C23": ("proved", ""),
"C24": ("proved", "Also for every intermediate state of the loop. max_leaf_nodes = 0 never fits (C24_zero_leaves_raises)."),
"C25": ("proved", ""),
"C26": ("proved", ""),
"C27": ("proved", ""),
"C28": ("proved", "For class dictionaries whose indices are 0..K-1 in some order."),
"C29": ("proved", ""),
"C30": ("proved", ""),
"C31": ("proved", ""),
"C32": ("proved", ""),
"C33": ("proved", "MAB needs batch_size >= 1."),
"C34": ("proved", "trainable spells out 'well-formed'; includes feature subsampling, any random state."),
"C35": ("partial", "Proved when every node that may be split proposes at least two thresholds (consistent data or supplied ranges). False in general: C35_linear_refuted (rows with equal features and different labels raise IndexError)."),
"C36": ("partial", "False of the code: C36_fit_arguments_refuted (the root keeps the constructor's rows). C36_root_partial: whatever data and labels fit is given, the root's rows, class counts, split feature, split value, reduction and query count are those of fit() without arguments. C36_same_arguments_partial: passing the constructor's own arrays changes nothing; passing only one of the two raises."),
"C37": ("partial", "False of the code: C37_default_depth_refuted; C77 shows it fails on every dataset."),
"C74": ("proved", ""),
"C75": ("proved", "The third disjunct is the code's double weighting in is_splittable."),
"C76": ("proved", ""),
"C77": ("proved", ""),
"C38": ("partial", "Probabilities proved. The label clause fails for a classes argument whose indices are not in order (C38_label_most_likely_refuted): predict returns the key at the position of the maximum. With indices in order it is C78."),
"C39": ("proved", ""),
"C40": ("proved", ""),
"C41": ("proved", ""),
"C42": ("proved", "Without row or column subsampling, as quantified."),
"C43": ("partial", "False of the code when boosting (C43_labels_untouched_refuted). Proved otherwise, and for all other arrays."),
"C44": ("proved", "The reported queries are those of this fit added to the earlier ones."),
"C45": ("proved", ""),
"C46": ("partial", "False of the code: the regression score divides by the number of votes twice, the classification score compares a class index with a label. Proved when no row is left out twice, resp. when every class equals its index. The exact value is C81."),
"C47": ("partial", "False of the code: reductions of evaluated but unsplit leaves are counted (C47_importance_refuted). Signs, and equality without budget and with non-negative threshold, proved. The exact value is C82."),
"C48": ("partial", "False of the code: C48_importance_current_refuted; what happens is C83."),
"C49": ("partial", "False of the code: C49_reset_budget_refuted; what happens is C84."),
"C50": ("partial", "First clause proved given equal contents of uninitialised memory (C50_reproducible_partial; any contents: C85). Second clause false: C50_between_refuted."),
"C51": ("partial", "False of the code: C51_criterion_honoured_refuted; what happens is C86."),
"C78": ("proved", ""),
"C79": ("proved", ""),
"C80": ("proved", "MAB part for classification."),
"C81": ("proved", ""),
"C82": ("proved", ""),
"C83": ("proved", ""),
"C84": ("proved", ""),
"C85": ("proved", ""),
"C86": ("proved", ""),
"C87": ("proved", ""),
"C88": ("proved", ""),
"C89": ("proved", ""),
"C90": ("proved", ""),
"C52": ("partial", "False of the code: C52_entropy_any_classes_refuted. Exact condition: C91."),
"C53": ("partial", "The argument n is ignored (C53_discrete_limit_refuted); proved with the constant 10 in its place."),
"C54": ("partial", "False for every dataset: detected values are sets, which the binning subscripts. What works is C92."),
"C55": ("partial", "False of the code (C55_discrete_values_follow_refuted): the remapped dictionary is correct but discarded."),
"C56": ("proved", "The square root is the integer one; numpy rounds."),
"C57": ("proved", ""),
"C60": ("proved", ""),
"C63": ("proved", "For data and labels of equal length."),
"C64": ("proved", ""),
"C91": ("proved", ""),
"C92": ("proved", ""),
"C58": ("partial", "Fails when nothing is selected (NaN): C58_freq_same_selection_refuted. Exact statement: C93."),
"C59": ("partial", "Symmetry holds; identical rankings give 1 for Spearman only (C59_identical_rankings_refuted). Exact values: C94."),
"C93": ("proved", "numpy's default sort is not stable: any sorting order is allowed."),
"C94": ("proved", ""),
"C95": ("proved", "Contradicts the comment 'rank 1 is the most important feature'."),
"C96": ("proved", ""),
"C97": ("proved", ""),
"C98": ("proved", ""),
"C99": ("proved", ""),
"C100": ("proved", ""),
"C101": ("proved", ""),
"C102": ("partial", "False of the code (C102_constant_column_refuted): a count of correct rows is compared with an out-of-bag fraction."),
"C62": ("partial", "False of the code: five wrappers cannot be constructed (C62_constructible_refuted) and ten others do not have a setting their docstring fixes (C62_documented_refuted). Proved for the five accurate docstrings."),
"C103": ("proved", ""), "C104": ("proved", ""), "C105": ("proved", ""), "C106": ("proved", ""), "C107": ("proved", ""), "C108": ("proved", ""),
"C109": ("partial", "False of the code (C109_full_rows_refuted): the selected columns are stored but no predict uses them. Proved instead: the wrapper reads the first columns of the row."),
"C110": ("proved", ""), "C111": ("proved", "The criterion and the splitter do not reach the trees: C51, C86."), "C112": ("proved", ""), "C113": ("proved", ""),
"C114": ("partial", "Proved for two classes. False of the code for three or more (C114_three_classes_refuted): covariances between the class frequencies are ignored and the result depends on the order of the classes. C114_any_classes_partial gives the value the code computes."),
"C115": ("proved", "get_entropy raises for three or more classes: C91."), "C116": ("proved", ""), "C117": ("proved", "For three or more classes V is the value of C114_any_classes_partial."),
"C118": ("proved", ""), "C119": ("proved", ""), "C120": ("proved", ""),
"C121": ("proved", ""), "C122": ("proved", ""), "C123": ("proved", ""), "C124": ("proved", "With C81, which gives the score in terms of the array named here."),
"C125": ("partial", "False of the code (C125_boosted_oob_refuted): fitting overwrites the label array with residuals and the score reads that array (C125_boosted_oob_array_partial with C121)."),
"C126": ("proved", ""), "C127": ("proved", "The two scores that are compared are on different scales: C102."), "C128": ("proved", "For finite importances; a NaN or infinite entry is not modelled."),
"C129": ("proved", "Arguments are passed by keyword; values of another kind than declared are not modelled."),
"C130": ("partial", "False of the code (C130_own_bins_refuted): num_bins is reassigned inside the loop over the features, so evenly spaced bins come in the number the features before left behind. Proved: that exact number, and the claim for the other two kinds (C130_own_bins_partial)."),
"C67": ("proved", "Over the real logarithm; the code's result is within eps of it when its logarithm is (C67_computed_entropy), a reported change within 2 eps (C67_reported_change). The two theorems on signs need no eps. With the variance get_entropy raises for three or more classes: C91. The docstring says log base 2, the code uses the natural logarithm."),
"C131": ("proved", ""),
"C65": ("partial", "False in doubles (C65_agreement_refuted): an edge can be counted right of itself, a value above an edge left of it, the maximum of whole numbers 0..11 right of all 16 edges, and for a narrow range far from zero the index is off by several bins. C65_agreement_partial: for bins wide compared with the rounding of their ends, agreement for every value further than a 128th of a bin from the edge."),
"C132": ("proved", "Flocq binary64, round to nearest even."),
"C133": ("proved", "C133_integer_targets is the rounding used when boosting writes into an integer label array (C121)."),
"C134": ("partial", "Proved for classes that are natural numbers whenever the default program succeeds (C134_same_histogram_partial). False otherwise: negative classes share a slot of the lookup table (C134_negative_class_refuted), unknown labels are counted as the first class instead of raising (C134_unknown_label_refuted)."),
"C135": ("partial", "Gini and MSE agree in changes and variances, both ways, on every filled histogram. Entropy: the changes agree, and the last variance; the other variances do not (C135_entropy_variance_refuted), because the vectorised derivative reads the logarithms of the last edge for all edges."),
"C136": ("partial", "False as stated (C136_right_intervals_best_answer_refuted): the search stops when at most five candidates are left and returns the one with the least estimate on the rows sampled so far. C136_right_intervals_best_answer_partial adds: classification, no replacement, every row read for every feature with candidates. C137 bounds the loss in general."),
"C137": ("proved", "For tolerance 0. The intervals being right is a hypothesis: the code computes them from estimated variances, whose coverage is not proved."),
"C138": ("proved", "For classification; a regression search that takes several batches merges them wrongly (C04)."),
"C139": ("proved", "For the exhaustive search with LINEAR or IDENTITY bins, exact arithmetic. The bandit search samples positions and does depend on the order (C139_bandit_refuted)."),
"C140": ("proved", "For the exhaustive search with LINEAR or IDENTITY bins, exact arithmetic. Supplied feature ranges are translated too. With LINEAR bins the function must have the form k x + d (C140_curved_linear_refuted)."),
"C141": ("proved", "For the exhaustive search with LINEAR or IDENTITY bins, exact arithmetic. The recorded reductions are multiplied by k squared."),
"C142": ("proved", "For well-formed calls (forest_trainable), LINEAR or IDENTITY bins, exact arithmetic."),
"C143": ("proved", "For well-formed calls, LINEAR or IDENTITY bins, exact arithmetic. A dictionary the forest derives from the labels is sorted, so without an explicit one the renaming must be increasing. C143_oob_names_refuted, C143_oob_offset_refuted, C143_boosted_integers_refuted show that the side conditions are needed."),
"C144": ("proved", "Any solver. The answers are those of one batch prediction on the training rows; exact arithmetic."),
"C145": ("proved", "Any solver; class indices distinct and in range (good_classes)."),
"C146": ("proved", "For the exhaustive search, exact arithmetic."),
"C147": ("proved", "Exact arithmetic. The answer of the forest after k trees is boosted lr (firstn k ...); that this is what predict returns with all trees is C88. C147_large_rate_refuted and C147_bootstrap_refuted show that the side conditions are needed."),
"C148": ("proved", "IDENTITY bins, Gini or MSE, min_impurity_decrease >= 0. C148_consistent_labels_refuted (exclusive or) and C148_default_minimum_refuted (two rows, default min_samples_split) show that the side conditions are needed."),
"C149": ("proved", "TreeGen.v is Tree.v with the search and the arithmetic on reductions and proportions as parameters; C149_model_is_an_instance ties the two. Feature values, thresholds and label comparisons stay exact (comparisons of finite doubles are exact); predictions at the leaves are not part of the statement."),
"C150": ("proved", "The settings must have use_logarithmic_split_point off, since it derives the number of thresholds from the number of rows. C150_unscaled_refuted shows that min_samples_split has to be scaled."),
"C151": ("proved", "The docstring says the error is decomposed into noise, bias and variance; C151_sum_refuted shows that the reported numbers need not add up. The training loop that produces the predictions is an input of the model."),
"C152": ("proved", "C152_only_the_count is an equation between results, errors included. C152_starts_over_refuted: the generator is not rewound."),
"C153": ("proved", "C153_idle_column is the general statement; C153_monotone_column and C153_affine_column need no look at the splits. C153_mirrored_refuted: negated column with LINEAR bins."),
"C154": ("proved", "A split that is found but not made counts as use. C154_unused_refuted: the IndexError of LINEAR bins when all columns kept are constant."),
"C155": ("proved", "C155_subsampled_refuted: a duplicated column with one column drawn per node."),
"C156": ("proved", "The forest-level counterpart of C154; holds for boosting too, where the labels change between trees."),
"C157": ("proved", "Both trees are fitted; C157_smaller_limit_fits gives the smaller one from the larger."),
"C158": ("proved", ""),
"C159": ("proved", ""),
"C160": ("proved", "The shape is an inductive relation on row sets that mentions no queue, node ids or flags."),
"C161": ("proved", ""),
"C162": ("proved", "Whole results are equal; the retagged forest differs only in the stored setting."),
"C163": ("proved", "The dependence on the zero of the targets is C163_gini_shift_refuted, a witness."),
"C164": ("proved", "C164_column_order is an equivalence; C164_ties_matter is the witness that ties do matter."),
"C165": ("proved", "C165_squared_error and C165_brier_score are identities and give both bounds; C165_accuracy_lower is the witness about accuracy."),
"C166": ("proved", "C166_never_retrains covers every argument of the second call; C166_fit_again says how the call without arguments ends."),
"C167": ("proved", "The _reads_nothing versions ask for enough bins that no uninitialised memory is read; the _reads_no_seed versions ask instead that the uninitialised memory read is the same. C167_each_needed: each condition is needed."),
"C168": ("proved", "Positive statements for the first model, the second model of plain regression forests, and the verdict; C168_boosted_round and C168_labels_drain say exactly what boosting does to a comparison (float label array, GBHistogramRandomForestRegressor); the _refuted theorems are the witnesses for classifiers and boosting. Measured times are not modelled."),
"C169": ("proved", "The square root is only asked to be non-negative and positive on positive numbers. The _refuted theorems are witnesses: disjoint intervals that raise, and a trial in which the forgotten limit matters. Loading data, printing and log files are not modelled."),
"C170": ("proved", "The square root is only asked to be non-negative and positive on positive numbers. Times are not modelled."),
"C171": ("proved", ""),
"C172": ("proved", "Two refutations show that nesting and training accuracy do not follow."),
"C173": ("proved", "C173_not_enough is the run at the boundary."),
"C174": ("proved", "The million is BUFFER in constants.py; the statement bounds the loss by one tree."),
"C175": ("proved", "C175_no_budget_enough is the run in which no budget is enough."),
"C176": ("proved", "C176_boosted_unfair is a run in which a perfect learner loses by a factor of a hundred. The contest GBHRFR passes num_bins=None to random bins, which is not modelled; the results file is left out."),
"C177": ("proved", "C177_regression_refuted: the bound is special to classification; a regression tree of depth one reads every row with batches of two."),
"C178": ("proved", "Times, files and the loading of the data sets are not modelled."),
"C179": ("proved", "C179_separable_refuted shows what it costs: the guarantee a user expects of the search does not hold."),
"C180": ("proved", "C180_same_tree_refuted: with ties the two searches choose different splits."),
"C181": ("proved", "Lifts C179 and C180 to forests."),
"C182": ("partial", "Numerical columns are not passed on: the test compares a value with the type float and is always true, so they are replaced by codes as well (C182_numbers_refuted). The partial theorem proves the rest, with every column but Race encoded."),
"C183": ("proved", "The splitter is any function with the documented behaviour of train_test_split."),
"C184": ("partial", "False: intervals that meet give False (C184_verdict_refuted). The partial theorem says what True means: the intervals are disjoint and the first lies above the second."),
"C185": ("proved", "Numbers are exact; the times and the names of the rows are left out."),
"C186": ("proved", "Composes with the interval of the stability test."),
"C187": ("partial", "False: the table prints the training scores (C187_test_refuted, an actual run of the model with training accuracy 1 and test accuracy 0). The partial theorem says what is shown."),
"C188": ("proved", "The fitted line is any least-squares line; its existence from the normal equations is shown in TablesWitness.v."),
"C189": ("proved", "The split point is a parameter (16000 in the code)."),
"C190": ("proved", "C190_short_refuted: with a trial missing the printed average is not the mean of the counts."),
}
