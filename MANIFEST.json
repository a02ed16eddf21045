{
 "claims": [
  {
   "property": "C01",
   "status": "proved",
   "theorems": [
    "C01_bin_agrees_with_comparison",
    "C01_single_bin_refuted"
   ],
   "note": "All bin types; LINEAR needs at least two bins, the single-bin failure is C01_single_bin_refuted."
  },
  {
   "property": "C02",
   "status": "proved",
   "theorems": [
    "C02_classification_histogram_counts",
    "C02_nothing_lost"
   ],
   "note": "Any history of batches, any bin type, good_bins = increasing edges / at least two LINEAR bins."
  },
  {
   "property": "C03",
   "status": "proved",
   "theorems": [
    "C03_one_batch_exact"
   ],
   "note": "Single batch into an empty histogram is exact."
  },
  {
   "property": "C04",
   "status": "partial",
   "theorems": [
    "C04_counts_and_means_partial",
    "C04_merge_of_spread_batches",
    "C04_variance_refuted"
   ],
   "note": "Counts and means proved for every history. The variance clause is false of the code: C04_variance_refuted (welford_variance_calc drops a zero-variance batch); merging is exact when both variances are non-zero."
  },
  {
   "property": "C05",
   "status": "proved",
   "theorems": [
    "C05_gini_range",
    "C05_gini_succeeds"
   ],
   "note": ""
  },
  {
   "property": "C06",
   "status": "proved",
   "theorems": [
    "C06_reported_gini_change"
   ],
   "note": "Stated for what get_impurity_reductions reports after any history of batches."
  },
  {
   "property": "C07",
   "status": "proved",
   "theorems": [
    "C07_reported_variance_change"
   ],
   "note": "Stated for what get_impurity_reductions reports after one batch."
  },
  {
   "property": "C08",
   "status": "proved",
   "theorems": [
    "C08_exact_reports_true_change"
   ],
   "note": "Classification (Gini, entropy) and regression (MSE), LINEAR/IDENTITY/RANDOM bins."
  },
  {
   "property": "C09",
   "status": "proved",
   "theorems": [
    "C09_exact_is_optimal",
    "C09_identity_beats_every_threshold"
   ],
   "note": "For IDENTITY bins optimal over every real threshold on every feature; ties go to the first candidate."
  },
  {
   "property": "C10",
   "status": "proved",
   "theorems": [
    "C10_exact_queries",
    "C10_linear_queries"
   ],
   "note": ""
  },
  {
   "property": "C11",
   "status": "proved",
   "theorems": [
    "C11_row_order_irrelevant"
   ],
   "note": "Any permutation, any random state and memory contents on either side."
  },
  {
   "property": "C12",
   "status": "proved",
   "theorems": [
    "C12_exact_split_usable",
    "C12_mab_split_is_usable"
   ],
   "note": "EXACT and MAB, every draw and memory content; below the threshold min_impurity_reduction (0 by default)."
  },
  {
   "property": "C13",
   "status": "proved",
   "theorems": [
    "C13_mab_terminates",
    "C13_cost_without_replacement"
   ],
   "note": "Terminates for any number of arms; at most rows * non-constant features queries; each row is inserted at most once (NoDup sample in C72)."
  },
  {
   "property": "C14",
   "status": "proved",
   "theorems": [
    "C14_cost_with_replacement"
   ],
   "note": "At most 2 * rows * features * bins queries."
  },
  {
   "property": "C15",
   "status": "partial",
   "theorems": [
    "C15_memory_irrelevant_partial",
    "C15_few_arms_refuted"
   ],
   "note": "Proved for more than five candidate edges. False for at most five: C15_few_arms_refuted (the loop never runs and np.empty contents are returned)."
  },
  {
   "property": "C16",
   "status": "proved",
   "theorems": [
    "C16_full_batch_is_optimal",
    "C16_full_batch_like_exact"
   ],
   "note": "With more than five candidate edges, as quantified; also with replacement."
  },
  {
   "property": "C17",
   "status": "partial",
   "theorems": [
    "C17_stops_while_arms_overlap_refuted"
   ],
   "note": "False of the code: C17_stops_while_arms_overlap_refuted. What holds instead is C71."
  },
  {
   "property": "C18",
   "status": "partial",
   "theorems": [
    "C18_budget_overshoot",
    "C18_with_replacement_refuted"
   ],
   "note": "Proved without replacement. With replacement the overshoot can be rows per feature (C18_with_replacement_refuted); that larger bound is proved."
  },
  {
   "property": "C19",
   "status": "proved",
   "theorems": [
    "C19_estimates_attached_to_their_arms",
    "C19_every_run"
   ],
   "note": "One batch with any live arm list, and every state of every run (classification)."
  },
  {
   "property": "C20",
   "status": "proved",
   "theorems": [
    "C20_leaves_partition_rows"
   ],
   "note": ""
  },
  {
   "property": "C21",
   "status": "proved",
   "theorems": [
    "C21_rows_routed_to_their_leaf"
   ],
   "note": "Both directions: rows held by a leaf are routed to it, and every training row has such a leaf."
  },
  {
   "property": "C22",
   "status": "proved",
   "theorems": [
    "C22_every_point_reaches_one_leaf",
    "C22_predict_answers"
   ],
   "note": "Routing for every point that has the tree's features; predict answers (C22_predict_answers) when the class indices are 0..K-1."
  },
  {
   "property": "C23",
   "status": "proved",
   "theorems": [
    "C23_depth_limit"
   ],
   "note": ""
  },
  {
   "property": "C24",
   "status": "proved",
   "theorems": [
    "C24_leaf_limit",
    "C24_never_too_many_leaves",
    "C24_zero_leaves_raises"
   ],
   "note": "Also for every intermediate state of the loop. max_leaf_nodes = 0 never fits (C24_zero_leaves_raises)."
  },
  {
   "property": "C25",
   "status": "proved",
   "theorems": [
    "C25_only_eligible_nodes_split"
   ],
   "note": ""
  },
  {
   "property": "C26",
   "status": "proved",
   "theorems": [
    "C26_tree_shape",
    "C26_children_rows"
   ],
   "note": ""
  },
  {
   "property": "C27",
   "status": "proved",
   "theorems": [
    "C27_node_proportion"
   ],
   "note": ""
  },
  {
   "property": "C28",
   "status": "proved",
   "theorems": [
    "C28_tree_classification"
   ],
   "note": "For class dictionaries whose indices are 0..K-1 in some order."
  },
  {
   "property": "C29",
   "status": "proved",
   "theorems": [
    "C29_tree_regression"
   ],
   "note": ""
  },
  {
   "property": "C30",
   "status": "proved",
   "theorems": [
    "C30_prediction_has_no_memory"
   ],
   "note": ""
  },
  {
   "property": "C31",
   "status": "proved",
   "theorems": [
    "C31_tree_query_accounting"
   ],
   "note": ""
  },
  {
   "property": "C32",
   "status": "proved",
   "theorems": [
    "C32_tree_budget",
    "C32_no_budget_single_leaf"
   ],
   "note": ""
  },
  {
   "property": "C33",
   "status": "proved",
   "theorems": [
    "C33_fitting_terminates",
    "C33_fewer_splits_than_rows"
   ],
   "note": "MAB needs batch_size >= 1."
  },
  {
   "property": "C34",
   "status": "proved",
   "theorems": [
    "C34_exact_identity_never_raises"
   ],
   "note": "trainable spells out 'well-formed'; includes feature subsampling, any random state."
  },
  {
   "property": "C35",
   "status": "partial",
   "theorems": [
    "C35_linear_fits_partial",
    "C35_linear_refuted"
   ],
   "note": "Proved when every node that may be split proposes at least two thresholds (consistent data or supplied ranges). False in general: C35_linear_refuted (rows with equal features and different labels raise IndexError)."
  },
  {
   "property": "C36",
   "status": "partial",
   "theorems": [
    "C36_fit_arguments_refuted",
    "C36_root_partial",
    "C36_same_arguments_partial"
   ],
   "note": "False of the code: C36_fit_arguments_refuted (the root keeps the constructor's rows). C36_root_partial: whatever data and labels fit is given, the root's rows, class counts, split feature, split value, reduction and query count are those of fit() without arguments. C36_same_arguments_partial: passing the constructor's own arrays changes nothing; passing only one of the two raises."
  },
  {
   "property": "C37",
   "status": "partial",
   "theorems": [
    "C37_default_depth_refuted"
   ],
   "note": "False of the code: C37_default_depth_refuted; C77 shows it fails on every dataset."
  },
  {
   "property": "C38",
   "status": "partial",
   "theorems": [
    "C38_forest_probabilities",
    "C38_label_most_likely_refuted"
   ],
   "note": "Probabilities proved. The label clause fails for a classes argument whose indices are not in order (C38_label_most_likely_refuted): predict returns the key at the position of the maximum. With indices in order it is C78."
  },
  {
   "property": "C39",
   "status": "proved",
   "theorems": [
    "C39_forest_mean"
   ],
   "note": ""
  },
  {
   "property": "C40",
   "status": "proved",
   "theorems": [
    "C40_order_irrelevant"
   ],
   "note": ""
  },
  {
   "property": "C41",
   "status": "proved",
   "theorems": [
    "C41_batch_pointwise"
   ],
   "note": ""
  },
  {
   "property": "C42",
   "status": "proved",
   "theorems": [
    "C42_boosting_residual"
   ],
   "note": "Without row or column subsampling, as quantified."
  },
  {
   "property": "C43",
   "status": "partial",
   "theorems": [
    "C43_labels_untouched_partial",
    "C43_labels_untouched_refuted"
   ],
   "note": "False of the code when boosting (C43_labels_untouched_refuted). Proved otherwise, and for all other arrays."
  },
  {
   "property": "C44",
   "status": "proved",
   "theorems": [
    "C44_forest_budget",
    "C44_assertion_never_fires"
   ],
   "note": "The reported queries are those of this fit added to the earlier ones."
  },
  {
   "property": "C45",
   "status": "proved",
   "theorems": [
    "C45_out_of_bag_rows"
   ],
   "note": ""
  },
  {
   "property": "C46",
   "status": "partial",
   "theorems": [
    "C46_oob_accuracy_partial",
    "C46_oob_mse_partial",
    "C46_oob_mse_refuted",
    "C46_oob_accuracy_refuted"
   ],
   "note": "False of the code: the regression score divides by the number of votes twice, the classification score compares a class index with a label. Proved when no row is left out twice, resp. when every class equals its index. The exact value is C81."
  },
  {
   "property": "C47",
   "status": "partial",
   "theorems": [
    "C47_importance_signs_partial",
    "C47_importance_made_partial",
    "C47_importance_refuted"
   ],
   "note": "False of the code: reductions of evaluated but unsplit leaves are counted (C47_importance_refuted). Signs, and equality without budget and with non-negative threshold, proved. The exact value is C82."
  },
  {
   "property": "C48",
   "status": "partial",
   "theorems": [
    "C48_importance_current_refuted"
   ],
   "note": "False of the code: C48_importance_current_refuted; what happens is C83."
  },
  {
   "property": "C49",
   "status": "partial",
   "theorems": [
    "C49_reset_budget_refuted"
   ],
   "note": "False of the code: C49_reset_budget_refuted; what happens is C84."
  },
  {
   "property": "C50",
   "status": "partial",
   "theorems": [
    "C50_reproducible_partial",
    "C50_between_refuted"
   ],
   "note": "First clause proved given equal contents of uninitialised memory (C50_reproducible_partial; any contents: C85). Second clause false: C50_between_refuted."
  },
  {
   "property": "C51",
   "status": "partial",
   "theorems": [
    "C51_criterion_honoured_refuted"
   ],
   "note": "False of the code: C51_criterion_honoured_refuted; what happens is C86."
  },
  {
   "property": "C52",
   "status": "partial",
   "theorems": [
    "C52_entropy_any_classes_refuted"
   ],
   "note": "False of the code: C52_entropy_any_classes_refuted. Exact condition: C91."
  },
  {
   "property": "C53",
   "status": "partial",
   "theorems": [
    "C53_discrete_limit_refuted",
    "C53_discrete_features_partial"
   ],
   "note": "The argument n is ignored (C53_discrete_limit_refuted); proved with the constant 10 in its place."
  },
  {
   "property": "C54",
   "status": "partial",
   "theorems": [
    "C54_detected_bins_refuted"
   ],
   "note": "False for every dataset: detected values are sets, which the binning subscripts. What works is C92."
  },
  {
   "property": "C55",
   "status": "partial",
   "theorems": [
    "C55_discrete_values_follow_refuted",
    "C55_remap_partial",
    "C55_node_keeps_tree_values_partial"
   ],
   "note": "False of the code (C55_discrete_values_follow_refuted): the remapped dictionary is correct but discarded."
  },
  {
   "property": "C56",
   "status": "proved",
   "theorems": [
    "C56_choose_features",
    "C56_choose_features_answers"
   ],
   "note": "The square root is the integer one; numpy rounds."
  },
  {
   "property": "C57",
   "status": "proved",
   "theorems": [
    "C57_counts_of_labels",
    "C57_counts_of_labels_any"
   ],
   "note": ""
  },
  {
   "property": "C58",
   "status": "partial",
   "theorems": [
    "C58_freq_same_selection_refuted",
    "C58_freq_stability_partial"
   ],
   "note": "Fails when nothing is selected (NaN): C58_freq_same_selection_refuted. Exact statement: C93."
  },
  {
   "property": "C59",
   "status": "partial",
   "theorems": [
    "C59_identical_rankings_refuted",
    "C59_symmetric_partial",
    "C59_spearman_partial"
   ],
   "note": "Symmetry holds; identical rankings give 1 for Spearman only (C59_identical_rankings_refuted). Exact values: C94."
  },
  {
   "property": "C60",
   "status": "proved",
   "theorems": [
    "C60_classification_targets"
   ],
   "note": ""
  },
  {
   "property": "C61",
   "status": "proved",
   "theorems": [
    "C61_gini_variance_collapses",
    "C61_mse_variance_collapses",
    "C61_single_row_side_refuted"
   ],
   "note": "Gini with at least two rows on each side, MSE always. A one-row side gives NaN for Gini: C61_single_row_side_refuted."
  },
  {
   "property": "C62",
   "status": "partial",
   "theorems": [
    "C62_documented_refuted",
    "C62_constructible_refuted",
    "C62_documented_partial"
   ],
   "note": "False of the code: five wrappers cannot be constructed (C62_constructible_refuted) and ten others do not have a setting their docstring fixes (C62_documented_refuted). Proved for the five accurate docstrings."
  },
  {
   "property": "C63",
   "status": "proved",
   "theorems": [
    "C63_verify_reduction"
   ],
   "note": "For data and labels of equal length."
  },
  {
   "property": "C64",
   "status": "proved",
   "theorems": [
    "C64_filter_tied_arms"
   ],
   "note": ""
  },
  {
   "property": "C65",
   "status": "partial",
   "theorems": [
    "C65_agreement_refuted",
    "C65_agreement_partial"
   ],
   "note": "False in doubles (C65_agreement_refuted): an edge can be counted right of itself, a value above an edge left of it, the maximum of whole numbers 0..11 right of all 16 edges, and for a narrow range far from zero the index is off by several bins. C65_agreement_partial: for bins wide compared with the rounding of their ends, agreement for every value further than a 128th of a bin from the edge."
  },
  {
   "property": "C66",
   "status": "proved",
   "theorems": [
    "C66_exact_affine"
   ],
   "note": "All features rescaled at once, each with its own factor; also for IDENTITY bins."
  },
  {
   "property": "C67",
   "status": "proved",
   "theorems": [
    "C67_range",
    "C67_splitting",
    "C67_computed_entropy",
    "C67_computed_sign",
    "C67_computed_pure",
    "C67_reported_change"
   ],
   "note": "Over the real logarithm; the code's result is within eps of it when its logarithm is (C67_computed_entropy), a reported change within 2 eps (C67_reported_change). The two theorems on signs need no eps. With the variance get_entropy raises for three or more classes: C91. The docstring says log base 2, the code uses the natural logarithm."
  },
  {
   "property": "C68",
   "status": "proved",
   "theorems": [
    "C68_linear_edges",
    "C68_identity_edges",
    "C68_random_edges"
   ],
   "note": ""
  },
  {
   "property": "C69",
   "status": "proved",
   "theorems": [
    "C69_exact_answers_iff"
   ],
   "note": ""
  },
  {
   "property": "C70",
   "status": "proved",
   "theorems": [
    "C70_exact_deterministic"
   ],
   "note": ""
  },
  {
   "property": "C71",
   "status": "proved",
   "theorems": [
    "C71_gini_draws_one_batch"
   ],
   "note": ""
  },
  {
   "property": "C72",
   "status": "proved",
   "theorems": [
    "C72_mab_reports_a_sample_change"
   ],
   "note": ""
  },
  {
   "property": "C73",
   "status": "proved",
   "theorems": [
    "C73_mab_answers"
   ],
   "note": ""
  },
  {
   "property": "C74",
   "status": "proved",
   "theorems": [
    "C74_exact_splits_are_optimal"
   ],
   "note": ""
  },
  {
   "property": "C75",
   "status": "proved",
   "theorems": [
    "C75_exact_search_is_exhausted"
   ],
   "note": "The third disjunct is the code's double weighting in is_splittable."
  },
  {
   "property": "C76",
   "status": "proved",
   "theorems": [
    "C76_bandit_classification_fits"
   ],
   "note": ""
  },
  {
   "property": "C77",
   "status": "proved",
   "theorems": [
    "C77_missing_depth_raises"
   ],
   "note": ""
  },
  {
   "property": "C78",
   "status": "proved",
   "theorems": [
    "C78_classes_from_labels",
    "C78_classes_given",
    "C78_label_most_likely"
   ],
   "note": ""
  },
  {
   "property": "C79",
   "status": "proved",
   "theorems": [
    "C79_predictions_do_not_interfere",
    "C79_predict_answers"
   ],
   "note": ""
  },
  {
   "property": "C80",
   "status": "proved",
   "theorems": [
    "C80_fit_succeeds"
   ],
   "note": "MAB part for classification."
  },
  {
   "property": "C81",
   "status": "proved",
   "theorems": [
    "C81_oob_score_value"
   ],
   "note": ""
  },
  {
   "property": "C82",
   "status": "proved",
   "theorems": [
    "C82_importance_value"
   ],
   "note": ""
  },
  {
   "property": "C83",
   "status": "proved",
   "theorems": [
    "C83_importance_frozen"
   ],
   "note": ""
  },
  {
   "property": "C84",
   "status": "proved",
   "theorems": [
    "C84_fit_after_reset"
   ],
   "note": ""
  },
  {
   "property": "C85",
   "status": "proved",
   "theorems": [
    "C85_forest_depends_on_seed_only"
   ],
   "note": ""
  },
  {
   "property": "C86",
   "status": "proved",
   "theorems": [
    "C86_criterion_of_trees",
    "C86_criterion_ignored"
   ],
   "note": ""
  },
  {
   "property": "C87",
   "status": "proved",
   "theorems": [
    "C87_tree_depends_on_seed_only",
    "C87_tree_reproducible"
   ],
   "note": ""
  },
  {
   "property": "C88",
   "status": "proved",
   "theorems": [
    "C88_boosted_prediction"
   ],
   "note": ""
  },
  {
   "property": "C89",
   "status": "proved",
   "theorems": [
    "C89_only_boosting_touches_labels"
   ],
   "note": ""
  },
  {
   "property": "C90",
   "status": "proved",
   "theorems": [
    "C90_all_trees_without_budget"
   ],
   "note": ""
  },
  {
   "property": "C91",
   "status": "proved",
   "theorems": [
    "C91_entropy_classes"
   ],
   "note": ""
  },
  {
   "property": "C92",
   "status": "proved",
   "theorems": [
    "C92_listed_values_are_the_edges"
   ],
   "note": ""
  },
  {
   "property": "C93",
   "status": "proved",
   "theorems": [
    "C93_freq_stability",
    "C93_freq_too_many",
    "C93_freq_negative"
   ],
   "note": "numpy's default sort is not stable: any sorting order is allowed."
  },
  {
   "property": "C94",
   "status": "proved",
   "theorems": [
    "C94_spearman",
    "C94_jaccard",
    "C94_jaccard_identical",
    "C94_kuncheva_identical",
    "C94_spearman_value",
    "C94_jaccard_value",
    "C94_kuncheva_value",
    "C94_card_unique"
   ],
   "note": ""
  },
  {
   "property": "C95",
   "status": "proved",
   "theorems": [
    "C95_dense_ranks",
    "C95_ranks_without_ties",
    "C95_rank_one_is_least",
    "C95_order_only"
   ],
   "note": "Contradicts the comment 'rank 1 is the most important feature'."
  },
  {
   "property": "C96",
   "status": "proved",
   "theorems": [
    "C96_forest_order",
    "C96_mean_of_pairs",
    "C96_average",
    "C96_one_forest"
   ],
   "note": ""
  },
  {
   "property": "C97",
   "status": "proved",
   "theorems": [
    "C97_array_rows",
    "C97_vector_needs_training"
   ],
   "note": ""
  },
  {
   "property": "C98",
   "status": "proved",
   "theorems": [
    "C98_array_again"
   ],
   "note": ""
  },
  {
   "property": "C99",
   "status": "proved",
   "theorems": [
    "C99_array_reproducible"
   ],
   "note": ""
  },
  {
   "property": "C100",
   "status": "proved",
   "theorems": [
    "C100_array_keeps_labels"
   ],
   "note": ""
  },
  {
   "property": "C101",
   "status": "proved",
   "theorems": [
    "C101_shuffle"
   ],
   "note": ""
  },
  {
   "property": "C102",
   "status": "partial",
   "theorems": [
    "C102_constant_column_refuted",
    "C102_constant_column_partial"
   ],
   "note": "False of the code (C102_constant_column_refuted): a count of correct rows is compared with an out-of-bag fraction."
  },
  {
   "property": "C103",
   "status": "proved",
   "theorems": [
    "C103_settings",
    "C103_kind",
    "C103_unknown_option"
   ],
   "note": ""
  },
  {
   "property": "C104",
   "status": "proved",
   "theorems": [
    "C104_boosted_classifiers_unusable",
    "C104_others_constructible",
    "C104_missing_option"
   ],
   "note": ""
  },
  {
   "property": "C105",
   "status": "proved",
   "theorems": [
    "C105_wrapper_fits"
   ],
   "note": ""
  },
  {
   "property": "C106",
   "status": "proved",
   "theorems": [
    "C106_wrapper_needs_depth"
   ],
   "note": ""
  },
  {
   "property": "C107",
   "status": "proved",
   "theorems": [
    "C107_patches",
    "C107_others"
   ],
   "note": ""
  },
  {
   "property": "C108",
   "status": "proved",
   "theorems": [
    "C108_training_columns_only",
    "C108_tree_columns_only"
   ],
   "note": ""
  },
  {
   "property": "C109",
   "status": "partial",
   "theorems": [
    "C109_full_rows_refuted",
    "C109_first_columns_partial"
   ],
   "note": "False of the code (C109_full_rows_refuted): the selected columns are stored but no predict uses them. Proved instead: the wrapper reads the first columns of the row."
  },
  {
   "property": "C110",
   "status": "proved",
   "theorems": [
    "C110_best_leaf_is_split_first"
   ],
   "note": ""
  },
  {
   "property": "C111",
   "status": "proved",
   "theorems": [
    "C111_settings_reach_the_trees",
    "C111_precomputed_ranges",
    "C111_ranges_kept"
   ],
   "note": "The criterion and the splitter do not reach the trees: C51, C86."
  },
  {
   "property": "C112",
   "status": "proved",
   "theorems": [
    "C112_rows_and_columns_of_trees",
    "C112_arguments_of_trees"
   ],
   "note": ""
  },
  {
   "property": "C113",
   "status": "proved",
   "theorems": [
    "C113_automatic_bin_type"
   ],
   "note": ""
  },
  {
   "property": "C114",
   "status": "partial",
   "theorems": [
    "C114_gini_variance_two_classes_partial",
    "C114_any_classes_partial",
    "C114_never_negative_partial",
    "C114_pure_sample_partial",
    "C114_three_classes_refuted"
   ],
   "note": "Proved for two classes. False of the code for three or more (C114_three_classes_refuted): covariances between the class frequencies are ignored and the result depends on the order of the classes. C114_any_classes_partial gives the value the code computes."
  },
  {
   "property": "C115",
   "status": "proved",
   "theorems": [
    "C115_entropy_variance_two_classes"
   ],
   "note": "get_entropy raises for three or more classes: C91."
  },
  {
   "property": "C116",
   "status": "proved",
   "theorems": [
    "C116_mse_variance",
    "C116_mse_variance_population",
    "C116_never_negative",
    "C116_whole_population"
   ],
   "note": ""
  },
  {
   "property": "C117",
   "status": "proved",
   "theorems": [
    "C117_gini_change_variance",
    "C117_two_class_change_variance",
    "C117_mse_change_and_variance"
   ],
   "note": "For three or more classes V is the value of C114_any_classes_partial."
  },
  {
   "property": "C118",
   "status": "proved",
   "theorems": [
    "C118_node_features"
   ],
   "note": ""
  },
  {
   "property": "C119",
   "status": "proved",
   "theorems": [
    "C119_recorded_value"
   ],
   "note": ""
  },
  {
   "property": "C120",
   "status": "proved",
   "theorems": [
    "C120_exact_tree_queries"
   ],
   "note": ""
  },
  {
   "property": "C121",
   "status": "proved",
   "theorems": [
    "C121_boosted_targets"
   ],
   "note": ""
  },
  {
   "property": "C122",
   "status": "proved",
   "theorems": [
    "C122_when_fitting_stops"
   ],
   "note": ""
  },
  {
   "property": "C123",
   "status": "proved",
   "theorems": [
    "C123_accepted",
    "C123_refused",
    "C123_new_forest",
    "C123_fit_needs_both"
   ],
   "note": ""
  },
  {
   "property": "C124",
   "status": "proved",
   "theorems": [
    "C124_labels_compared"
   ],
   "note": "With C81, which gives the score in terms of the array named here."
  },
  {
   "property": "C125",
   "status": "partial",
   "theorems": [
    "C125_boosted_oob_array_partial",
    "C125_boosted_oob_refuted"
   ],
   "note": "False of the code (C125_boosted_oob_refuted): fitting overwrites the label array with residuals and the score reads that array (C125_boosted_oob_array_partial with C121)."
  },
  {
   "property": "C126",
   "status": "proved",
   "theorems": [
    "C126_accepted",
    "C126_new_object",
    "C126_forests_of_array"
   ],
   "note": ""
  },
  {
   "property": "C127",
   "status": "proved",
   "theorems": [
    "C127_permutation_scores"
   ],
   "note": "The two scores that are compared are on different scales: C102."
  },
  {
   "property": "C128",
   "status": "proved",
   "theorems": [
    "C128_baseline"
   ],
   "note": "For finite importances; a NaN or infinite entry is not modelled."
  },
  {
   "property": "C129",
   "status": "proved",
   "theorems": [
    "C129_settings",
    "C129_constructed",
    "C129_unknown_option"
   ],
   "note": "Arguments are passed by keyword; values of another kind than declared are not modelled."
  },
  {
   "property": "C130",
   "status": "partial",
   "theorems": [
    "C130_own_bins_refuted",
    "C130_own_bins_partial"
   ],
   "note": "False of the code (C130_own_bins_refuted): num_bins is reassigned inside the loop over the features, so evenly spaced bins come in the number the features before left behind. Proved: that exact number, and the claim for the other two kinds (C130_own_bins_partial)."
  },
  {
   "property": "C131",
   "status": "proved",
   "theorems": [
    "C131_gini_alone",
    "C131_entropy_alone",
    "C131_gini_of_labels",
    "C131_entropy_of_labels"
   ],
   "note": ""
  },
  {
   "property": "C132",
   "status": "proved",
   "theorems": [
    "C132_order_kept",
    "C132_minimum_first"
   ],
   "note": "Flocq binary64, round to nearest even."
  },
  {
   "property": "C133",
   "status": "proved",
   "theorems": [
    "C133_class_labels",
    "C133_sample_sizes",
    "C133_integer_targets"
   ],
   "note": "C133_integer_targets is the rounding used when boosting writes into an integer label array (C121)."
  },
  {
   "property": "C134",
   "status": "partial",
   "theorems": [
    "C134_same_histogram_partial",
    "C134_negative_class_refuted",
    "C134_unknown_label_refuted"
   ],
   "note": "Proved for classes that are natural numbers whenever the default program succeeds (C134_same_histogram_partial). False otherwise: negative classes share a slot of the lookup table (C134_negative_class_refuted), unknown labels are counted as the first class instead of raising (C134_unknown_label_refuted)."
  },
  {
   "property": "C135",
   "status": "partial",
   "theorems": [
    "C135_gini_partial",
    "C135_mse_partial",
    "C135_entropy_change_partial",
    "C135_entropy_variance_refuted"
   ],
   "note": "Gini and MSE agree in changes and variances, both ways, on every filled histogram. Entropy: the changes agree, and the last variance; the other variances do not (C135_entropy_variance_refuted), because the vectorised derivative reads the logarithms of the last edge for all edges."
  },
  {
   "property": "C136",
   "status": "partial",
   "theorems": [
    "C136_right_intervals_best_answer_refuted",
    "C136_right_intervals_best_answer_partial"
   ],
   "note": "False as stated (C136_right_intervals_best_answer_refuted): the search stops when at most five candidates are left and returns the one with the least estimate on the rows sampled so far. C136_right_intervals_best_answer_partial adds: classification, no replacement, every row read for every feature with candidates. C137 bounds the loss in general."
  },
  {
   "property": "C137",
   "status": "proved",
   "theorems": [
    "C137_near_best_answer"
   ],
   "note": "For tolerance 0. The intervals being right is a hypothesis: the code computes them from estimated variances, whose coverage is not proved."
  },
  {
   "property": "C138",
   "status": "proved",
   "theorems": [
    "C138_full_cost_is_optimal"
   ],
   "note": "For classification; a regression search that takes several batches merges them wrongly (C04)."
  },
  {
   "property": "C139",
   "status": "proved",
   "theorems": [
    "C139_row_order_irrelevant",
    "C139_bandit_refuted"
   ],
   "note": "For the exhaustive search with LINEAR or IDENTITY bins, exact arithmetic. The bandit search samples positions and does depend on the order (C139_bandit_refuted)."
  },
  {
   "property": "C140",
   "status": "proved",
   "theorems": [
    "C140_feature_units_irrelevant",
    "C140_curved_linear_refuted"
   ],
   "note": "For the exhaustive search with LINEAR or IDENTITY bins, exact arithmetic. Supplied feature ranges are translated too. With LINEAR bins the function must have the form k x + d (C140_curved_linear_refuted)."
  },
  {
   "property": "C141",
   "status": "proved",
   "theorems": [
    "C141_label_units"
   ],
   "note": "For the exhaustive search with LINEAR or IDENTITY bins, exact arithmetic. The recorded reductions are multiplied by k squared."
  },
  {
   "property": "C142",
   "status": "proved",
   "theorems": [
    "C142_forest_feature_units"
   ],
   "note": "For well-formed calls (forest_trainable), LINEAR or IDENTITY bins, exact arithmetic."
  },
  {
   "property": "C143",
   "status": "proved",
   "theorems": [
    "C143_forest_label_units",
    "C143_oob_names_refuted",
    "C143_oob_offset_refuted",
    "C143_boosted_integers_refuted"
   ],
   "note": "For well-formed calls, LINEAR or IDENTITY bins, exact arithmetic. A dictionary the forest derives from the labels is sorted, so without an explicit one the renaming must be increasing. C143_oob_names_refuted, C143_oob_offset_refuted, C143_boosted_integers_refuted show that the side conditions are needed."
  },
  {
   "property": "C144",
   "status": "proved",
   "theorems": [
    "C144_training_error"
   ],
   "note": "Any solver. The answers are those of one batch prediction on the training rows; exact arithmetic."
  },
  {
   "property": "C145",
   "status": "proved",
   "theorems": [
    "C145_training_accuracy"
   ],
   "note": "Any solver; class indices distinct and in range (good_classes)."
  },
  {
   "property": "C146",
   "status": "proved",
   "theorems": [
    "C146_impurity_accounts",
    "C146_splits_lower_impurity",
    "C146_error_accounts"
   ],
   "note": "For the exhaustive search, exact arithmetic."
  },
  {
   "property": "C147",
   "status": "proved",
   "theorems": [
    "C147_boosting_never_hurts",
    "C147_residuals_never_grow",
    "C147_large_rate_refuted",
    "C147_bootstrap_refuted"
   ],
   "note": "Exact arithmetic. The answer of the forest after k trees is boosted lr (firstn k ...); that this is what predict returns with all trees is C88. C147_large_rate_refuted and C147_bootstrap_refuted show that the side conditions are needed."
  },
  {
   "property": "C148",
   "status": "proved",
   "theorems": [
    "C148_why_leaves_stop",
    "C148_reproduces",
    "C148_consistent_labels_refuted",
    "C148_default_minimum_refuted"
   ],
   "note": "IDENTITY bins, Gini or MSE, min_impurity_decrease >= 0. C148_consistent_labels_refuted (exclusive or) and C148_default_minimum_refuted (two rows, default min_samples_split) show that the side conditions are needed."
  },
  {
   "property": "C149",
   "status": "proved",
   "theorems": [
    "C149_model_is_an_instance",
    "C149_rows",
    "C149_routing",
    "C149_splits",
    "C149_size",
    "C149_cost",
    "C149_terminates",
    "C149_fit_succeeds"
   ],
   "note": "TreeGen.v is Tree.v with the search and the arithmetic on reductions and proportions as parameters; C149_model_is_an_instance ties the two. Feature values, thresholds and label comparisons stay exact (comparisons of finite doubles are exact); predictions at the leaves are not part of the statement."
  },
  {
   "property": "C150",
   "status": "proved",
   "theorems": [
    "C150_repeated_rows",
    "C150_make_huge_copies",
    "C150_make_huge",
    "C150_unscaled_refuted"
   ],
   "note": "The settings must have use_logarithmic_split_point off, since it derives the number of thresholds from the number of rows. C150_unscaled_refuted shows that min_samples_split has to be scaled."
  },
  {
   "property": "C151",
   "status": "proved",
   "theorems": [
    "C151_reported",
    "C151_cross_term",
    "C151_adds_up_iff",
    "C151_averages",
    "C151_sum_refuted"
   ],
   "note": "The docstring says the error is decomposed into noise, bias and variance; C151_sum_refuted shows that the reported numbers need not add up. The training loop that produces the predictions is an input of the model."
  },
  {
   "property": "C152",
   "status": "proved",
   "theorems": [
    "C152_only_the_count",
    "C152_between",
    "C152_starts_over_refuted"
   ],
   "note": "C152_only_the_count is an equation between results, errors included. C152_starts_over_refuted: the generator is not rewound."
  },
  {
   "property": "C153",
   "status": "proved",
   "theorems": [
    "C153_idle_column",
    "C153_monotone_column",
    "C153_affine_column",
    "C153_mirrored_refuted"
   ],
   "note": "C153_idle_column is the general statement; C153_monotone_column and C153_affine_column need no look at the splits. C153_mirrored_refuted: negated column with LINEAR bins."
  },
  {
   "property": "C154",
   "status": "proved",
   "theorems": [
    "C154_dropped_columns",
    "C154_unused_refuted"
   ],
   "note": "A split that is found but not made counts as use. C154_unused_refuted: the IndexError of LINEAR bins when all columns kept are constant."
  },
  {
   "property": "C155",
   "status": "proved",
   "theorems": [
    "C155_shadow_column",
    "C155_subsampled_refuted"
   ],
   "note": "C155_subsampled_refuted: a duplicated column with one column drawn per node."
  },
  {
   "property": "C156",
   "status": "proved",
   "theorems": [
    "C156_unused_columns"
   ],
   "note": "The forest-level counterpart of C154; holds for boosting too, where the labels change between trees."
  },
  {
   "property": "C157",
   "status": "proved",
   "theorems": [
    "C157_larger_limit",
    "C157_smaller_limit_fits"
   ],
   "note": "Both trees are fitted; C157_smaller_limit_fits gives the smaller one from the larger."
  },
  {
   "property": "C158",
   "status": "proved",
   "theorems": [
    "C158_limit_and_training_error"
   ],
   "note": ""
  },
  {
   "property": "C159",
   "status": "proved",
   "theorems": [
    "C159_more_trees",
    "C159_fewer_trees_fit"
   ],
   "note": ""
  },
  {
   "property": "C160",
   "status": "proved",
   "theorems": [
    "C160_recursive_tree",
    "C160_seed_free"
   ],
   "note": "The shape is an inductive relation on row sets that mentions no queue, node ids or flags."
  },
  {
   "property": "C161",
   "status": "proved",
   "theorems": [
    "C161_stricter_prunes",
    "C161_stricter_error"
   ],
   "note": ""
  },
  {
   "property": "C162",
   "status": "proved",
   "theorems": [
    "C162_tree_min_decrease",
    "C162_forest_min_decrease",
    "C162_forest_answers"
   ],
   "note": "Whole results are equal; the retagged forest differs only in the stored setting."
  },
  {
   "property": "C163",
   "status": "proved",
   "theorems": [
    "C163_gini_regression",
    "C163_entropy_regression",
    "C163_gini_shift_refuted"
   ],
   "note": "The dependence on the zero of the targets is C163_gini_shift_refuted, a witness."
  },
  {
   "property": "C164",
   "status": "proved",
   "theorems": [
    "C164_column_order",
    "C164_ordered_answers",
    "C164_any_order",
    "C164_ties_matter"
   ],
   "note": "C164_column_order is an equivalence; C164_ties_matter is the witness that ties do matter."
  },
  {
   "property": "C165",
   "status": "proved",
   "theorems": [
    "C165_squared_error",
    "C165_brier_score",
    "C165_accuracy_lower"
   ],
   "note": "C165_squared_error and C165_brier_score are identities and give both bounds; C165_accuracy_lower is the witness about accuracy."
  },
  {
   "property": "C166",
   "status": "proved",
   "theorems": [
    "C166_never_retrains",
    "C166_fit_again"
   ],
   "note": "C166_never_retrains covers every argument of the second call; C166_fit_again says how the call without arguments ends."
  },
  {
   "property": "C167",
   "status": "proved",
   "theorems": [
    "C167_tree_reads_nothing",
    "C167_tree_reads_no_seed",
    "C167_forest_reads_nothing",
    "C167_forest_reads_no_seed",
    "C167_each_needed"
   ],
   "note": "The _reads_nothing versions ask for enough bins that no uninitialised memory is read; the _reads_no_seed versions ask instead that the uninitialised memory read is the same. C167_each_needed: each condition is needed."
  },
  {
   "property": "C168",
   "status": "proved",
   "theorems": [
    "C168_first_model",
    "C168_first_scores",
    "C168_labels_kept",
    "C168_second_model",
    "C168_second_class_refuted",
    "C168_boosted_round",
    "C168_labels_drain",
    "C168_boosted_refuted",
    "C168_no_spread_no_overlap",
    "C168_one_seed",
    "C168_verdict_needs_predict"
   ],
   "note": "Positive statements for the first model, the second model of plain regression forests, and the verdict; C168_boosted_round and C168_labels_drain say exactly what boosting does to a comparison (float label array, GBHistogramRandomForestRegressor); the _refuted theorems are the witnesses for classifiers and boosting. Measured times are not modelled."
  },
  {
   "property": "C169",
   "status": "proved",
   "theorems": [
    "C169_trials_alone",
    "C169_verdict",
    "C169_passes_only_if_better",
    "C169_overlap_refuted",
    "C169_limit_refuted",
    "C169_nan_passes",
    "C169_zero_features_pass",
    "C169_budget_test"
   ],
   "note": "The square root is only asked to be non-negative and positive on positive numbers. The _refuted theorems are witnesses: disjoint intervals that raise, and a trial in which the forgotten limit matters. Loading data, printing and log files are not modelled."
  },
  {
   "property": "C170",
   "status": "proved",
   "theorems": [
    "C170_scores",
    "C170_rounds",
    "C170_report",
    "C170_overlap"
   ],
   "note": "The square root is only asked to be non-negative and positive on positive numbers. Times are not modelled."
  },
  {
   "property": "C171",
   "status": "proved",
   "theorems": [
    "C171_limits_prune",
    "C171_limits_error"
   ],
   "note": ""
  },
  {
   "property": "C172",
   "status": "proved",
   "theorems": [
    "C172_larger_budget",
    "C172_larger_budget_error",
    "C172_nested_refuted",
    "C172_hits_refuted"
   ],
   "note": "Two refutations show that nesting and training accuracy do not follow."
  },
  {
   "property": "C173",
   "status": "proved",
   "theorems": [
    "C173_enough_budget",
    "C173_not_enough"
   ],
   "note": "C173_not_enough is the run at the boundary."
  },
  {
   "property": "C174",
   "status": "proved",
   "theorems": [
    "C174_larger_budget",
    "C174_constructor"
   ],
   "note": "The million is BUFFER in constants.py; the statement bounds the loss by one tree."
  },
  {
   "property": "C175",
   "status": "proved",
   "theorems": [
    "C175_enough_budget",
    "C175_free_tree",
    "C175_no_budget_enough"
   ],
   "note": "C175_no_budget_enough is the run in which no budget is enough."
  },
  {
   "property": "C176",
   "status": "proved",
   "theorems": [
    "C176_one_seed",
    "C176_settings",
    "C176_rounds",
    "C176_same_labels",
    "C176_boosted",
    "C176_boosted_unfair",
    "C176_returned",
    "C176_one_seed_no_overlap",
    "C176_unknown"
   ],
   "note": "C176_boosted_unfair is a run in which a perfect learner loses by a factor of a hundred. The contest GBHRFR passes num_bins=None to random bins, which is not modelled; the results file is left out."
  },
  {
   "property": "C177",
   "status": "proved",
   "theorems": [
    "C177_bandit_tree_queries",
    "C177_bandit_tree_bound",
    "C177_forest_bound",
    "C177_exact_floor",
    "C177_never_dearer",
    "C177_regression_refuted"
   ],
   "note": "C177_regression_refuted: the bound is special to classification; a regression tree of depth one reads every row with batches of two."
  },
  {
   "property": "C178",
   "status": "proved",
   "theorems": [
    "C178_recorded",
    "C178_settings",
    "C178_class_ceiling"
   ],
   "note": "Times, files and the loading of the data sets are not modelled."
  },
  {
   "property": "C179",
   "status": "proved",
   "theorems": [
    "C179_bandit_split",
    "C179_bandit_searched",
    "C179_drawn_first",
    "C179_separable_refuted",
    "C179_bandit_leaf"
   ],
   "note": "C179_separable_refuted shows what it costs: the guarantee a user expects of the search does not hold."
  },
  {
   "property": "C180",
   "status": "proved",
   "theorems": [
    "C180_small_split",
    "C180_small_leaf",
    "C180_small_queries",
    "C180_small_accounts",
    "C180_small_training",
    "C180_same_tree_refuted"
   ],
   "note": "C180_same_tree_refuted: with ties the two searches choose different splits."
  },
  {
   "property": "C181",
   "status": "proved",
   "theorems": [
    "C181_small_forest",
    "C181_batch_forest"
   ],
   "note": "Lifts C179 and C180 to forests."
  },
  {
   "property": "C182",
   "status": "partial",
   "theorems": [
    "C182_preprocess_partial",
    "C182_absent",
    "C182_numbers_refuted"
   ],
   "note": "Numerical columns are not passed on: the test compares a value with the type float and is always true, so they are replaced by codes as well (C182_numbers_refuted). The partial theorem proves the rest, with every column but Race encoded."
  },
  {
   "property": "C183",
   "status": "proved",
   "theorems": [
    "C183_split"
   ],
   "note": "The splitter is any function with the documented behaviour of train_test_split."
  },
  {
   "property": "C184",
   "status": "partial",
   "theorems": [
    "C184_verdict_partial",
    "C184_verdict_refuted"
   ],
   "note": "False: intervals that meet give False (C184_verdict_refuted). The partial theorem says what True means: the intervals are disjoint and the first lies above the second."
  },
  {
   "property": "C185",
   "status": "proved",
   "theorems": [
    "C185_runtime",
    "C185_budget",
    "C185_order",
    "C185_exact"
   ],
   "note": "Numbers are exact; the times and the names of the rows are left out."
  },
  {
   "property": "C186",
   "status": "proved",
   "theorems": [
    "C186_stability"
   ],
   "note": "Composes with the interval of the stability test."
  },
  {
   "property": "C187",
   "status": "partial",
   "theorems": [
    "C187_column_partial",
    "C187_test_refuted"
   ],
   "note": "False: the table prints the training scores (C187_test_refuted, an actual run of the model with training accuracy 1 and test accuracy 0). The partial theorem says what is shown."
  },
  {
   "property": "C188",
   "status": "proved",
   "theorems": [
    "C188_r_squared",
    "C188_constant"
   ],
   "note": "The fitted line is any least-squares line; its existence from the normal equations is shown in TablesWitness.v."
  },
  {
   "property": "C189",
   "status": "proved",
   "theorems": [
    "C189_housing"
   ],
   "note": "The split point is a parameter (16000 in the code)."
  },
  {
   "property": "C190",
   "status": "proved",
   "theorems": [
    "C190_averages",
    "C190_mean",
    "C190_overflow",
    "C190_short_refuted"
   ],
   "note": "C190_short_refuted: with a trial missing the printed average is not the mean of the counts."
  }
 ]
}