# What `Print Assumptions` lists for each theorem

Generated by tools/gen_assumptions.py from the property files.

## PropsBandit.v

* `C177_bandit_tree_queries`: closed under the global context
* `C177_bandit_tree_bound`: closed under the global context
* `C177_forest_bound`: closed under the global context
* `C177_exact_floor`: closed under the global context
* `C177_never_dearer`: closed under the global context
* `C177_regression_refuted`: closed under the global context

## PropsBaseline.v

* `C176_one_seed`: closed under the global context
* `C176_settings`: closed under the global context
* `C176_rounds`: closed under the global context
* `C176_same_labels`: closed under the global context
* `C176_boosted`: closed under the global context
* `C176_boosted_unfair`: closed under the global context
* `C176_returned`: closed under the global context
* `C176_one_seed_no_overlap`: closed under the global context
* `C176_unknown`: closed under the global context

## PropsBatch.v

* `C179_bandit_split`: closed under the global context
* `C179_bandit_searched`: closed under the global context
* `C179_drawn_first`: closed under the global context
* `C179_separable_refuted`: closed under the global context

## PropsBias.v

* `C151_reported`: closed under the global context
* `C151_cross_term`: closed under the global context
* `C151_adds_up_iff`: closed under the global context
* `C151_averages`: closed under the global context
* `C151_sum_refuted`: closed under the global context

## PropsBlind.v

* `C167_tree_reads_nothing`: closed under the global context
* `C167_tree_reads_no_seed`: closed under the global context
* `C167_forest_reads_nothing`: closed under the global context
* `C167_forest_reads_no_seed`: closed under the global context
* `C167_each_needed`: closed under the global context

## PropsBudget.v

* `C171_limits_prune`: closed under the global context
* `C171_limits_error`: closed under the global context
* `C172_larger_budget`: closed under the global context
* `C172_larger_budget_error`: closed under the global context
* `C172_nested_refuted`: closed under the global context
* `C172_hits_refuted`: closed under the global context
* `C173_enough_budget`: closed under the global context
* `C173_not_enough`: closed under the global context

## PropsCol.v

* `C153_idle_column`: closed under the global context
* `C153_monotone_column`: closed under the global context
* `C153_affine_column`: closed under the global context
* `C153_mirrored_refuted`: closed under the global context
* `C154_dropped_columns`: closed under the global context
* `C154_unused_refuted`: closed under the global context

## PropsCompare.v

* `C168_first_model`: closed under the global context
* `C168_first_scores`: closed under the global context
* `C168_labels_kept`: closed under the global context
* `C168_second_model`: closed under the global context
* `C168_second_class_refuted`: closed under the global context
* `C168_boosted_round`: closed under the global context
* `C168_labels_drain`: closed under the global context
* `C168_boosted_refuted`: closed under the global context
* `C168_no_spread_no_overlap`: closed under the global context
* `C168_one_seed`: closed under the global context
* `C168_verdict_needs_predict`: closed under the global context

## PropsCopy.v

* `C150_repeated_rows`: closed under the global context
* `C150_make_huge_copies`: closed under the global context
* `C150_make_huge`: closed under the global context
* `C150_unscaled_refuted`: closed under the global context

## PropsEns.v

* `C165_squared_error`: closed under the global context
* `C165_brier_score`: closed under the global context
* `C165_accuracy_lower`: closed under the global context

## PropsEntropy.v

* `C67_range`: ClassicalDedekindReals.sig_not_dec, ClassicalDedekindReals.sig_forall_dec, FunctionalExtensionality.functional_extensionality_dep, Classical_Prop.classic
* `C67_splitting`: ClassicalDedekindReals.sig_not_dec, ClassicalDedekindReals.sig_forall_dec, FunctionalExtensionality.functional_extensionality_dep, Classical_Prop.classic
* `C67_computed_entropy`: ClassicalDedekindReals.sig_not_dec, ClassicalDedekindReals.sig_forall_dec, FunctionalExtensionality.functional_extensionality_dep, Classical_Prop.classic
* `C67_computed_sign`: ClassicalDedekindReals.sig_forall_dec, FunctionalExtensionality.functional_extensionality_dep
* `C67_computed_pure`: ClassicalDedekindReals.sig_forall_dec, FunctionalExtensionality.functional_extensionality_dep
* `C67_reported_change`: ClassicalDedekindReals.sig_not_dec, ClassicalDedekindReals.sig_forall_dec, FunctionalExtensionality.functional_extensionality_dep, Classical_Prop.classic
* `C131_gini_alone`: closed under the global context
* `C131_entropy_alone`: closed under the global context
* `C131_gini_of_labels`: closed under the global context
* `C131_entropy_of_labels`: closed under the global context

## PropsExact.v

* `C08_exact_reports_true_change`: closed under the global context
* `C09_exact_is_optimal`: closed under the global context
* `C09_identity_beats_every_threshold`: closed under the global context
* `C10_exact_queries`: closed under the global context
* `C10_linear_queries`: closed under the global context
* `C11_row_order_irrelevant`: closed under the global context
* `C12_exact_split_usable`: closed under the global context
* `C66_exact_affine`: closed under the global context
* `C69_exact_answers_iff`: closed under the global context
* `C70_exact_deterministic`: closed under the global context

## PropsFBudget.v

* `C174_larger_budget`: closed under the global context
* `C174_constructor`: closed under the global context
* `C175_enough_budget`: closed under the global context
* `C175_free_tree`: closed under the global context
* `C175_no_budget_enough`: closed under the global context

## PropsFCol.v

* `C155_shadow_column`: closed under the global context
* `C155_subsampled_refuted`: closed under the global context
* `C156_unused_columns`: closed under the global context

## PropsFInvar.v

* `C142_forest_feature_units`: closed under the global context
* `C143_forest_label_units`: closed under the global context
* `C143_oob_names_refuted`: closed under the global context
* `C143_oob_offset_refuted`: closed under the global context
* `C143_boosted_integers_refuted`: closed under the global context

## PropsFloat.v

* `C65_agreement_refuted`: ClassicalDedekindReals.sig_not_dec, ClassicalDedekindReals.sig_forall_dec, FunctionalExtensionality.functional_extensionality_dep, Classical_Prop.classic
* `C65_agreement_partial`: ClassicalDedekindReals.sig_not_dec, ClassicalDedekindReals.sig_forall_dec, FunctionalExtensionality.functional_extensionality_dep, Classical_Prop.classic
* `C132_order_kept`: ClassicalDedekindReals.sig_not_dec, ClassicalDedekindReals.sig_forall_dec, FunctionalExtensionality.functional_extensionality_dep, Classical_Prop.classic
* `C132_minimum_first`: ClassicalDedekindReals.sig_not_dec, ClassicalDedekindReals.sig_forall_dec, FunctionalExtensionality.functional_extensionality_dep, Classical_Prop.classic

## PropsForest.v

* `C38_forest_probabilities`: closed under the global context
* `C38_label_most_likely_refuted`: closed under the global context
* `C78_classes_from_labels`: closed under the global context
* `C78_classes_given`: closed under the global context
* `C78_label_most_likely`: closed under the global context
* `C39_forest_mean`: closed under the global context
* `C40_order_irrelevant`: closed under the global context
* `C41_batch_pointwise`: closed under the global context
* `C79_predictions_do_not_interfere`: closed under the global context
* `C79_predict_answers`: closed under the global context
* `C42_boosting_residual`: closed under the global context
* `C88_boosted_prediction`: closed under the global context
* `C43_labels_untouched_partial`: closed under the global context
* `C89_only_boosting_touches_labels`: closed under the global context
* `C43_labels_untouched_refuted`: closed under the global context
* `C44_forest_budget`: closed under the global context
* `C44_assertion_never_fires`: closed under the global context
* `C90_all_trees_without_budget`: closed under the global context
* `C45_out_of_bag_rows`: closed under the global context
* `C46_oob_accuracy_partial`: closed under the global context
* `C46_oob_mse_partial`: closed under the global context
* `C46_oob_mse_refuted`: closed under the global context
* `C46_oob_accuracy_refuted`: closed under the global context
* `C81_oob_score_value`: closed under the global context
* `C82_importance_value`: closed under the global context
* `C47_importance_signs_partial`: closed under the global context
* `C47_importance_made_partial`: closed under the global context
* `C47_importance_refuted`: closed under the global context
* `C48_importance_current_refuted`: closed under the global context
* `C83_importance_frozen`: closed under the global context
* `C49_reset_budget_refuted`: closed under the global context
* `C84_fit_after_reset`: closed under the global context
* `C50_reproducible_partial`: closed under the global context
* `C50_between_refuted`: closed under the global context
* `C85_forest_depends_on_seed_only`: closed under the global context
* `C87_tree_depends_on_seed_only`: closed under the global context
* `C87_tree_reproducible`: closed under the global context
* `C51_criterion_honoured_refuted`: closed under the global context
* `C86_criterion_of_trees`: closed under the global context
* `C86_criterion_ignored`: closed under the global context
* `C80_fit_succeeds`: closed under the global context
* `C111_settings_reach_the_trees`: closed under the global context
* `C111_precomputed_ranges`: closed under the global context
* `C111_ranges_kept`: closed under the global context
* `C112_rows_and_columns_of_trees`: closed under the global context
* `C112_arguments_of_trees`: closed under the global context
* `C121_boosted_targets`: closed under the global context
* `C122_when_fitting_stops`: closed under the global context
* `C123_accepted`: closed under the global context
* `C123_refused`: closed under the global context
* `C123_new_forest`: closed under the global context
* `C123_fit_needs_both`: closed under the global context
* `C124_labels_compared`: closed under the global context
* `C125_boosted_oob_array_partial`: closed under the global context
* `C125_boosted_oob_refuted`: closed under the global context
* `C133_class_labels`: closed under the global context
* `C133_sample_sizes`: closed under the global context
* `C133_integer_targets`: closed under the global context

## PropsGen.v

* `C149_model_is_an_instance`: closed under the global context
* `C149_rows`: closed under the global context
* `C149_routing`: closed under the global context
* `C149_splits`: closed under the global context
* `C149_size`: closed under the global context
* `C149_cost`: closed under the global context
* `C149_terminates`: closed under the global context
* `C149_fit_succeeds`: closed under the global context

## PropsGrow.v

* `C160_recursive_tree`: closed under the global context
* `C160_seed_free`: closed under the global context
* `C161_stricter_prunes`: closed under the global context
* `C161_stricter_error`: closed under the global context
* `C162_tree_min_decrease`: closed under the global context
* `C162_forest_min_decrease`: closed under the global context
* `C162_forest_answers`: closed under the global context

## PropsHeart.v

* `C182_preprocess_partial`: closed under the global context
* `C182_absent`: closed under the global context
* `C182_numbers_refuted`: closed under the global context
* `C183_split`: closed under the global context
* `C184_verdict_partial`: closed under the global context
* `C184_verdict_refuted`: closed under the global context

## PropsHist.v

* `C01_bin_agrees_with_comparison`: closed under the global context
* `C01_single_bin_refuted`: closed under the global context
* `C68_linear_edges`: closed under the global context
* `C68_identity_edges`: closed under the global context
* `C68_random_edges`: closed under the global context
* `C02_classification_histogram_counts`: closed under the global context
* `C02_nothing_lost`: closed under the global context
* `C03_one_batch_exact`: closed under the global context
* `C04_counts_and_means_partial`: closed under the global context
* `C04_merge_of_spread_batches`: closed under the global context
* `C04_variance_refuted`: closed under the global context
* `C05_gini_range`: closed under the global context
* `C05_gini_succeeds`: closed under the global context
* `C06_reported_gini_change`: closed under the global context
* `C07_reported_variance_change`: closed under the global context
* `C61_gini_variance_collapses`: closed under the global context
* `C61_mse_variance_collapses`: closed under the global context
* `C61_single_row_side_refuted`: closed under the global context

## PropsInvariance.v

* `C139_row_order_irrelevant`: closed under the global context
* `C139_bandit_refuted`: closed under the global context
* `C140_feature_units_irrelevant`: closed under the global context
* `C140_curved_linear_refuted`: closed under the global context
* `C141_label_units`: closed under the global context

## PropsLogs.v

* `C189_housing`: closed under the global context
* `C190_averages`: closed under the global context
* `C190_mean`: closed under the global context
* `C190_overflow`: closed under the global context
* `C190_short_refuted`: closed under the global context

## PropsMab.v

* `C12_mab_split_is_usable`: closed under the global context
* `C13_mab_terminates`: closed under the global context
* `C13_cost_without_replacement`: closed under the global context
* `C14_cost_with_replacement`: closed under the global context
* `C15_memory_irrelevant_partial`: closed under the global context
* `C15_few_arms_refuted`: closed under the global context
* `C16_full_batch_is_optimal`: closed under the global context
* `C16_full_batch_like_exact`: closed under the global context
* `C71_gini_draws_one_batch`: closed under the global context
* `C17_stops_while_arms_overlap_refuted`: closed under the global context
* `C18_budget_overshoot`: closed under the global context
* `C18_with_replacement_refuted`: closed under the global context
* `C19_estimates_attached_to_their_arms`: closed under the global context
* `C19_every_run`: closed under the global context
* `C72_mab_reports_a_sample_change`: closed under the global context
* `C73_mab_answers`: closed under the global context

## PropsNest.v

* `C157_larger_limit`: closed under the global context
* `C157_smaller_limit_fits`: closed under the global context
* `C158_limit_and_training_error`: closed under the global context
* `C159_more_trees`: closed under the global context
* `C159_fewer_trees_fit`: closed under the global context

## PropsOrder.v

* `C164_column_order`: closed under the global context
* `C164_ordered_answers`: closed under the global context
* `C164_any_order`: closed under the global context
* `C164_ties_matter`: closed under the global context

## PropsPerm.v

* `C58_freq_same_selection_refuted`: closed under the global context
* `C93_freq_stability`: closed under the global context
* `C58_freq_stability_partial`: closed under the global context
* `C93_freq_too_many`: closed under the global context
* `C93_freq_negative`: closed under the global context
* `C59_identical_rankings_refuted`: closed under the global context
* `C59_symmetric_partial`: closed under the global context
* `C59_spearman_partial`: closed under the global context
* `C94_spearman`: closed under the global context
* `C94_jaccard`: closed under the global context
* `C94_jaccard_identical`: closed under the global context
* `C94_kuncheva_identical`: closed under the global context
* `C94_spearman_value`: closed under the global context
* `C94_jaccard_value`: closed under the global context
* `C94_kuncheva_value`: closed under the global context
* `C94_card_unique`: closed under the global context
* `C95_dense_ranks`: closed under the global context
* `C95_ranks_without_ties`: closed under the global context
* `C95_rank_one_is_least`: closed under the global context
* `C95_order_only`: closed under the global context
* `C96_forest_order`: closed under the global context
* `C96_mean_of_pairs`: closed under the global context
* `C96_average`: closed under the global context
* `C96_one_forest`: closed under the global context
* `C97_array_rows`: closed under the global context
* `C97_vector_needs_training`: closed under the global context
* `C98_array_again`: closed under the global context
* `C99_array_reproducible`: closed under the global context
* `C100_array_keeps_labels`: closed under the global context
* `C101_shuffle`: closed under the global context
* `C102_constant_column_refuted`: closed under the global context
* `C102_constant_column_partial`: closed under the global context
* `C126_accepted`: closed under the global context
* `C126_new_object`: closed under the global context
* `C126_forests_of_array`: closed under the global context
* `C127_permutation_scores`: closed under the global context
* `C128_baseline`: closed under the global context

## PropsPile.v

* `C163_gini_regression`: closed under the global context
* `C163_entropy_regression`: closed under the global context
* `C163_gini_shift_refuted`: closed under the global context

## PropsReport.v

* `C170_scores`: closed under the global context
* `C170_rounds`: closed under the global context
* `C170_report`: closed under the global context
* `C170_overlap`: closed under the global context

## PropsReset.v

* `C152_only_the_count`: closed under the global context
* `C152_between`: closed under the global context
* `C152_starts_over_refuted`: closed under the global context

## PropsScaling.v

* `C178_recorded`: closed under the global context
* `C178_settings`: closed under the global context
* `C178_class_ceiling`: closed under the global context

## PropsSmall.v

* `C179_bandit_leaf`: closed under the global context
* `C180_small_split`: closed under the global context
* `C180_small_leaf`: closed under the global context
* `C180_small_queries`: closed under the global context
* `C180_small_accounts`: closed under the global context
* `C180_small_training`: closed under the global context
* `C180_same_tree_refuted`: closed under the global context

## PropsSmallForest.v

* `C181_small_forest`: closed under the global context
* `C181_batch_forest`: closed under the global context

## PropsStab.v

* `C169_trials_alone`: closed under the global context
* `C169_verdict`: closed under the global context
* `C169_passes_only_if_better`: closed under the global context
* `C169_overlap_refuted`: closed under the global context
* `C169_limit_refuted`: closed under the global context
* `C169_nan_passes`: closed under the global context
* `C169_zero_features_pass`: closed under the global context
* `C169_budget_test`: closed under the global context

## PropsTables.v

* `C185_runtime`: closed under the global context
* `C185_budget`: closed under the global context
* `C185_order`: closed under the global context
* `C185_exact`: closed under the global context
* `C186_stability`: closed under the global context
* `C187_column_partial`: closed under the global context
* `C187_test_refuted`: closed under the global context
* `C188_r_squared`: closed under the global context
* `C188_constant`: closed under the global context

## PropsTrain.v

* `C144_training_error`: closed under the global context
* `C145_training_accuracy`: closed under the global context
* `C146_impurity_accounts`: closed under the global context
* `C146_splits_lower_impurity`: closed under the global context
* `C146_error_accounts`: closed under the global context
* `C147_boosting_never_hurts`: closed under the global context
* `C147_residuals_never_grow`: closed under the global context
* `C147_large_rate_refuted`: closed under the global context
* `C147_bootstrap_refuted`: closed under the global context
* `C148_why_leaves_stop`: closed under the global context
* `C148_reproduces`: closed under the global context
* `C148_consistent_labels_refuted`: closed under the global context
* `C148_default_minimum_refuted`: closed under the global context

## PropsTree.v

* `C20_leaves_partition_rows`: closed under the global context
* `C21_rows_routed_to_their_leaf`: closed under the global context
* `C22_every_point_reaches_one_leaf`: closed under the global context
* `C22_predict_answers`: closed under the global context
* `C23_depth_limit`: closed under the global context
* `C24_leaf_limit`: closed under the global context
* `C24_never_too_many_leaves`: closed under the global context
* `C24_zero_leaves_raises`: closed under the global context
* `C25_only_eligible_nodes_split`: closed under the global context
* `C26_tree_shape`: closed under the global context
* `C26_children_rows`: closed under the global context
* `C27_node_proportion`: closed under the global context
* `C28_tree_classification`: closed under the global context
* `C29_tree_regression`: closed under the global context
* `C30_prediction_has_no_memory`: closed under the global context
* `C31_tree_query_accounting`: closed under the global context
* `C32_tree_budget`: closed under the global context
* `C32_no_budget_single_leaf`: closed under the global context
* `C33_fitting_terminates`: closed under the global context
* `C33_fewer_splits_than_rows`: closed under the global context
* `C34_exact_identity_never_raises`: closed under the global context
* `C35_linear_fits_partial`: closed under the global context
* `C35_linear_refuted`: closed under the global context
* `C36_fit_arguments_refuted`: closed under the global context
* `C36_root_partial`: closed under the global context
* `C36_same_arguments_partial`: closed under the global context
* `C37_default_depth_refuted`: closed under the global context
* `C74_exact_splits_are_optimal`: closed under the global context
* `C75_exact_search_is_exhausted`: closed under the global context
* `C76_bandit_classification_fits`: closed under the global context
* `C77_missing_depth_raises`: closed under the global context
* `C110_best_leaf_is_split_first`: closed under the global context
* `C118_node_features`: closed under the global context
* `C119_recorded_value`: closed under the global context
* `C120_exact_tree_queries`: closed under the global context

## PropsTrust.v

* `C136_right_intervals_best_answer_refuted`: closed under the global context
* `C136_right_intervals_best_answer_partial`: closed under the global context
* `C137_near_best_answer`: closed under the global context
* `C138_full_cost_is_optimal`: closed under the global context

## PropsTwice.v

* `C166_never_retrains`: closed under the global context
* `C166_fit_again`: closed under the global context

## PropsUtils.v

* `C52_entropy_any_classes_refuted`: closed under the global context
* `C91_entropy_classes`: closed under the global context
* `C53_discrete_limit_refuted`: closed under the global context
* `C53_discrete_features_partial`: closed under the global context
* `C54_detected_bins_refuted`: closed under the global context
* `C92_listed_values_are_the_edges`: closed under the global context
* `C55_discrete_values_follow_refuted`: closed under the global context
* `C55_remap_partial`: closed under the global context
* `C55_node_keeps_tree_values_partial`: closed under the global context
* `C56_choose_features`: closed under the global context
* `C56_choose_features_answers`: closed under the global context
* `C57_counts_of_labels`: closed under the global context
* `C57_counts_of_labels_any`: closed under the global context
* `C60_classification_targets`: closed under the global context
* `C63_verify_reduction`: closed under the global context
* `C64_filter_tied_arms`: closed under the global context
* `C113_automatic_bin_type`: closed under the global context
* `C130_own_bins_refuted`: closed under the global context
* `C130_own_bins_partial`: closed under the global context

## PropsVar.v

* `C114_gini_variance_two_classes_partial`: closed under the global context
* `C114_any_classes_partial`: closed under the global context
* `C114_never_negative_partial`: closed under the global context
* `C114_pure_sample_partial`: closed under the global context
* `C114_three_classes_refuted`: closed under the global context
* `C115_entropy_variance_two_classes`: closed under the global context
* `C116_mse_variance`: closed under the global context
* `C116_mse_variance_population`: closed under the global context
* `C116_never_negative`: closed under the global context
* `C116_whole_population`: closed under the global context
* `C117_gini_change_variance`: closed under the global context
* `C117_two_class_change_variance`: closed under the global context
* `C117_mse_change_and_variance`: closed under the global context

## PropsVector.v

* `C134_same_histogram_partial`: closed under the global context
* `C134_negative_class_refuted`: closed under the global context
* `C134_unknown_label_refuted`: closed under the global context
* `C135_gini_partial`: closed under the global context
* `C135_mse_partial`: closed under the global context
* `C135_entropy_change_partial`: closed under the global context
* `C135_entropy_variance_refuted`: closed under the global context

## PropsWrap.v

* `C62_documented_refuted`: closed under the global context
* `C62_constructible_refuted`: closed under the global context
* `C62_documented_partial`: closed under the global context
* `C103_settings`: closed under the global context
* `C103_kind`: closed under the global context
* `C103_unknown_option`: closed under the global context
* `C104_boosted_classifiers_unusable`: closed under the global context
* `C104_others_constructible`: closed under the global context
* `C104_missing_option`: closed under the global context
* `C105_wrapper_fits`: closed under the global context
* `C106_wrapper_needs_depth`: closed under the global context
* `C107_patches`: closed under the global context
* `C107_others`: closed under the global context
* `C108_training_columns_only`: closed under the global context
* `C108_tree_columns_only`: closed under the global context
* `C109_full_rows_refuted`: closed under the global context
* `C109_first_columns_partial`: closed under the global context
* `C129_settings`: closed under the global context
* `C129_constructed`: closed under the global context
* `C129_unknown_option`: closed under the global context
