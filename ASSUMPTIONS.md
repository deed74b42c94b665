# Output of Print Assumptions for every theorem in theories/Props (generated by tools/assumptions.py)

## Closed under the global context

* AutoProps.v: C30_auto_total, C30_auto_heuristic, C30_auto_fit, C30_auto_respects_monotone, C30_asc_desc_respects_monotone, C30_asc_desc_reversed_refuted, C30_reported_trend, C30_reported_strict, C30_ties_reported_as_peak_refuted, C30_table_trend, C30_table_trend_many_specials_refuted
* BSketchProps.v: C34_reduction_counts_partial, C34_no_interference_partial, C34_order_independent_partial, C34_categorical_reduction_partial, C34_missing_only_lost_refuted, C34_missing_only_overwritten_refuted, C34_aliasing_refuted, C34_categorical_aliasing_refuted
* CPProps.v: C07_assignments_are_partitions, C07_every_prebin_once, C07_every_partition_representable, C07_solution_vector_shape, C08_objective_is_table_divergence, C08_optimal_among_requests, C09_number_of_bins, C09_single_prebin_ignores_min_n_bins_refuted, C10_bin_sizes, C11_monotone_trend, C11_min_event_rate_diff, C12_peak_valley, C13_concave_convex, C13_rejects_two_bins_refuted, C14_pvalue_honoured, C14_only_violations_excluded, C15_valid_binning_feasible_partial, C15_trend_alone_feasible, C15_preprocessing_rejects_valid_refuted, C06_fixed_splits_in_result, C17_no_solution_single_bin, C11_exact_monotone_refuted
* CatProps.v: C04_category_in_one_bin, C04_table_matches_transform, C04_bins_ordered_by_rate, C04_others_are_rare, C04_user_splits_loses_records_refuted, C04_single_user_group_refuted
* ClassifProps.v: C44_gini_counts_pairs, C44_gini_range, C44_gini_perfect, C44_gini_reversed, C44_gini_constant_scores, C44_gini_rank_based, C44_ks_is_off_by_one, C44_ks_perfect_separation_refuted, C44_ks_range, C44_confusion_metrics, C44_single_label_fails_refuted, C44_mpe_below_mape, C44_mape_zero_iff_exact, C44_smape_range, C44_smape_symmetric
* ContLifeProps.v: C82_not_fitted_iff, C82_fit_forgets_history, C82_missing_row_history, C82_missing_row_any_history, C82_refinement_count, C82_failed_refit_keeps_results_partial, C82_json_round_trip, C82_transform_ignores_file, C82_stale_totals_refuted, C82_failed_refit_mixes_results_refuted, C82_fixed_splits_refuted, C82_refinement_count_refuted
* ContProps.v: C27_missing_and_special_rows, C27_fit_raises_refuted, C27_stale_missing_stats_refuted, C28_trend_honoured, C28_min_mean_diff, C28_pvalue_policy, C28_bins_and_sizes, C28_valid_binning_feasible, C28_optimal_among_requests, C28_peak_rejects_valid_refuted, C28_small_targets_unordered_refuted, C51_gamma_penalises_size_spread, C51_larger_gamma, C51_continuous_gamma_ignored_refuted
* ContTableProps.v: C69_totals_min_refuted
* CoreProps.v: C01_split_partitions, C01_nan_target_refuted, C02_unique_bin, C02_transform_indices_is_bin, C02_transform_value_is_bin, C03_table_matches_transform, C05_refinement_correct, C06_fixed_splits_kept, C16_merge_preserves_counts, C24_missing_value, C24_special_value, C25_indices_identify_rows_partial, C25_default_indices_refuted, C48_bounds_partial, C48_both_bounds_refuted, C47_outliers_only_from_clean
* GKProps.v: C32_quantile_rank_error, C32_quantile_one_is_max, C32_quantile_is_added_value, C32_min_max_exact, C32_quantile_zero_is_min_refuted, C32_rank_error_after_merge_refuted, C33_count_exact, C33_merge_total, C33_weights_sum_to_count_partial, C33_weights_at_least_count, C33_weights_sum_after_merge_refuted
* LSProps.v: C77_assignments_are_partitions, C77_requests_honoured, C77_valid_binning_feasible, C77_optimal_divergence, C77_no_solution_single_bin, C77_preprocessing_rejects_valid_refuted, C77_concave_rejects_two_bins_refuted, C77_fit_raises_refuted
* LabelProps.v: C73_number_text, C73_label_shows_bin, C73_labels_distinct, C73_transform_bins, C73_same_text_same_row, C73_labels_collide_refuted, C73_label_misleads_refuted, C73_special_key_refuted
* LifecycleProps.v: C26_fit_forgets_history, C26_refit_idempotent_partial, C26_min_one_redundant, C26_fixed_refit_raises, C26_fixed_splits_refuted, C26_refinement_count_refuted, C26_empty_user_splits_refuted, C03_after_any_history, C49_not_fitted_iff, C49_table_flags, C49_failed_call_no_effect, C49_failed_read_refuted, C50_table_round_trip_partial, C50_to_json_succeeds, C50_other_files_kept, C50_integer_data_fails, C50_resave_fails, C50_transform_ignores_file, C50_transform_refuted, C59_failed_refit_keeps_results_partial, C59_failed_refit_mixes_results_refuted, C06_user_splits_any_order
* MdlpProps.v: C31_valid_splits, C31_pure_not_split, C31_constant_not_split, C31_refit_accumulates
* MonitorProps.v: C43_system_counts_everything, C43_system_labels_refuted, C43_variable_counts, C43_actual_records_lost_refuted
* MultiLifeProps.v: C84_refinement_count, C84_table_after_any_history, C84_failed_refit_classes, C84_json_round_trip, C84_fixed_splits_refuted, C84_second_save_refuted
* MultiProps.v: C52_table_exact, C29_trend_per_class, C29_objective, C29_valid_binning_feasible, C29_heuristic_ignored_refuted, C29_concave_ignored_refuted, C52_rare_class_lost_refuted
* MultiTableProps.v: C70_others_row_excluded
* OptSketchCatProps.v: C56_rows_match_bins_partial, C56_others_and_order, C56_refinement_collapses_refuted
* OptSketchProps.v: C54_table_totals_partial, C54_single_bin_counts_twice_refuted, C55_cumulated_counts_accurate, C55_rows_exact_right_closed, C55_transform_agrees_partial, C55_transform_disagrees_refuted
* OptionProps.v: C79_one_variable, C79_two_variables, C79_piecewise, C79_streams, C79_process, C79_scorecard, C79_criteria, C79_arguments, C79_errors, C79_nan_refuted, C79_bsketch_eps_refuted, C79_numpy_flags_refuted, C79_pw_prebins_refuted, C79_pw_yquantile_refuted, C79_cont_2d_mdlp_refuted, C79_sketch_ls_refuted, C79_criteria_refuted, C79_numpy_int_refuted
* OutlierProps.v: C47_flags, C47_fit_succeeds, C47_range_removes_few, C47_zscore_removes_half, C47_zscore_majority, C47_units, C47_order, C47_yquantile_flags, C47_split
* PWLifeProps.v: C83_status_words, C83_infeasible_refuted
* PWOutlierProps.v: C92_rows, C92_all_counted, C92_zscore_quarter, C92_equal_tailed_bound, C92_density_second_pass, C92_zscore_majority, C92_second_pass_refuted
* PWTrendProps.v: C94_auto_request, C94_auto_sound, C94_order_and_unit, C94_named_trend, C94_ties_refuted, C94_subsample, C94_subsample_all_refuted, C94_stratified_refuted
* PWTrendTableProps.v: C94_table_shape, C94_table_shape_refuted
* PiecewiseProps.v: C45_table_counts
* PrebinProps.v: C72_rounding, C72_cart_splits, C72_min_prebin_size, C72_cart_threshold_minus_two_refuted, C72_fixed_split_moved_refuted, C72_min_size_lost_by_rounding_refuted, C72_categorical_digits0_refuted
* ProcLifeProps.v: C71_each_variable, C71_max_bin_size_ignored_refuted, C71_selection, C71_fit_forgets_history, C71_not_fitted, C71_fit_disk_is_fit, C71_dotted_path_refuted, C71_fit_from_dict_is_fit, C71_support_and_transform, C71_update, C71_parameter_ranges, C71_summary, C71_information, C71_fit_from_dict_requires, C71_failed_refit_mixes_refuted, C71_failed_refit_breaks_summary_refuted, C71_failed_refit_wrong_width_refuted, C71_unfitted_update_refuted, C71_continuous_piecewise_update_refuted, C71_pending_update_refuted, C71_information_dtype_refuted
* ProcessProps.v: C40_parallel_fit_is_sequential, C40_blocks_in_any_order, C40_every_variable_fitted, C41_selected_meet_bounds, C41_fixed_always_selected, C41_at_most_top, C41_best_ranked, C41_exactly_top, C41_total, C41_refit_reordered_refuted, C57_support_after_summary, C57_stale_support_refuted, C42_no_params, C42_arguments_used, C42_local_partial, C42_chunks_partial, C42_leak_refuted, C42_chunk_leak_refuted, C42_indices_truncate_refuted
* ProcessSketchProps.v: C66_each_variable_alone, C66_succeeds_iff, C66_solved, C66_n_samples_partial, C66_merged_samples_refuted, C66_selection_criteria_raise_refuted, C66_never_solved_with_criteria, C66_max_bin_size_ignored_refuted, C66_options_partial, C66_fit_params_override, C66_merge_new_raises_refuted, C66_missing_variable_raises, C66_array_names_merge_raises_refuted, C66_merge_needs_equal_options, C66_failed_merge_not_atomic_refuted, C66_failed_add_not_atomic_refuted, C66_transform_needs_solve, C66_transform_indices_bins_raise_refuted, C66_transform_missing_column, C66_transform_partial, C66_transform_params_leak_refuted
* ScaledProps.v: C29_optimal
* ScenLifeProps.v: C88_prebinning_input
* ScenarioProps.v: C65_tables_exact, C65_requests_in_every_scenario, C65_valid_binning_feasible, C65_optimal, C65_weights_partial, C65_weights_truncated_refuted, C65_zero_weight_raises, C65_fit_terminates, C65_no_split_crashes_refuted, C65_fixed_kept_partial, C65_fixed_split_lost_refuted, C65_unsorted_fixed_refuted, C65_refit_fixed_refuted, C65_peak_shared_change_refuted
* ScorePlotsProps.v: C90_cap_curve, C90_cap_gini, C90_ks, C90_roc, C90_rejected_iff, C90_history, C90_saved, C90_ks_value_refuted, C90_ties_refuted, C90_overlay_refuted
* SketchLifeProps.v: C81_answers_of_the_last_solve, C81_rows_count_the_records_partial, C81_statistics, C81_exact_sketches_forget_the_history, C81_solving_twice_changes_the_binning_refuted, C81_solve_needs_an_own_add, C81_merged_records_not_solved_refuted, C81_merge_with_new_object_raises, C81_information_raises_refuted, C81_categorical_answers, C81_failed_categorical_solve_refuted
* TablePlotProps.v: C89_accepted_iff, C89_bars, C89_markers, C89_labels, C89_actual, C89_history
* TwoDCartProps.v: C61_candidates, C61_bins_partition_plane, C61_table_counts, C61_limits, C61_monotone_y, C61_monotone_x_partial, C61_optimal, C61_no_single_leaf_bin, C61_two_leaves_fail, C61_monotone_x_refuted, C61_continuous_bins_partition_plane, C61_continuous_table_rows, C61_continuous_monotone_y
* TwoDContProps.v: C60_bins_partition_plane, C60_table_rows, C60_std_defined, C60_monotone_x, C60_monotone_y, C60_limits, C60_mean_transform, C60_mean_special_missing, C60_optimal, C60_optimal_deviation, C60_deviations_cancel, C46_event_rate_transform
* TwoDLifeProps.v: C86_not_fitted_iff, C86_fit_forgets_history, C86_fit_transform, C86_fit_transform_points, C86_transform_rejects, C86_binary_results, C86_continuous_results, C86_plane_after_any_history, C86_failed_refit, C86_to_json_never_works, C86_read_json, C86_analysis_needs_build, C86_failed_refit_swaps_categories_refuted, C86_failed_refit_status_refuted, C86_failed_read_json_counts_as_fitted_refuted
* TwoDMIPProps.v: C68_gamma_allows_every_tiling, C68_gamma_optimal, C68_larger_gamma
* TwoDPairsProps.v: C75_pairs, C75_pairs_cart, C75_pairs_continuous, C75_pairs_continuous_cart
* TwoDProps.v: C46_bins_partition_plane, C46_table_counts, C46_monotone_x, C46_monotone_y, C46_limits, C46_solutions_are_the_valid_tilings, C46_optimal, C46_fit_succeeds_partial, C46_no_split_fails_refuted, C46_total, C46_unknown_category_refuted
* TwoDTableProps.v: C87_history
* UnsupProps.v: C93_valid, C93_error, C93_splits, C93_uniform, C93_quantile_counts, C93_order, C93_units, C93_min_collapse, C93_ignored, C93_min_size_refuted, C93_unit_refuted
* WeightProps.v: C62_weighted_counts_partial, C62_fractional_refuted, C62_scale_refuted, C62_balanced_totals, C62_inputs_unchanged_partial, C62_inputs_modified_refuted

## Axioms: `ClassicalDedekindReals.sig_forall_dec`

* CounterfactualProps.v: C63_max_changes

## Axioms: `ClassicalDedekindReals.sig_forall_dec`, `ClassicalDedekindReals.sig_not_dec`, `Classical_Prop.classic`, `FunctionalExtensionality.functional_extensionality_dep`

* CounterLifeProps.v: C78_counterfactuals
* CounterfactualProps.v: C63_outcome, C63_found_iff, C63_weighted_optimal, C63_special_rows_refuted, C63_prediction_missing_query_refuted
* MIPProps.v: C64_optimal_divergence
* MdlpProps.v: C31_first_split_maximises_gain, C31_refit_refuted, C31_stopping_rule_ignored_at_root_refuted, C31_bins_smaller_than_leaf_refuted
* MetricsProps.v: C18_table_columns, C19_divergences, C20_merging_decreases_divergence, C20_pure_rows_refuted, C21_woe_event_rate_inverse, C21_transform_matches_table, C21_transform_matches_table_categorical, C21_int_unknown_truncates_refuted, C22_quality_score_range, C23_unknown_category_partial, C23_default_unknown_refuted
* MonLifeProps.v: C76_not_fitted, C76_only_fit_changes_answers, C76_binary_tables, C76_variable_tables, C76_refitted_scorecard_refuted, C76_continuous_tables, C76_report, C76_binary_report, C76_failed_refit_mixes_refuted
* MonitorProps.v: C43_psi_divergence, C43_psi_with_empty_bins, C43_identical_data_nan_refuted, C43_summary_skips_common_empty_bins, C43_missing_counted_as_first_bin_refuted
* MultiLifeProps.v: C84_not_fitted_iff, C84_fit_forgets_history, C84_transform_after_any_history, C84_failed_refit_keeps_results_partial, C84_transform_ignores_file, C84_failed_refit_classes_refuted, C84_failed_refit_mixes_results_refuted, C84_refinement_count_refuted
* MultiMIPProps.v: C67_optimal_divergence
* MultiProps.v: C53_mean_woe
* MultiTableProps.v: C70_js, C70_merging_decreases_js, C70_hhi_quality_range, C70_quality_tests
* PWLifeProps.v: C83_not_fitted_iff, C83_fit_forgets_history, C83_table_of_the_last_fit, C83_failed_refit, C83_failed_regression_index_error, C83_binary_fit_transform, C83_continuous_fit_transform, C83_estimator_parameter, C83_continuous_fit_transform_refuted, C83_failed_refit_refuted
* PWTableProps.v: C85_binary_analysis, C85_analysis_never_raises, C85_build_after_fit
* PiecewiseProps.v: C45_event_rate_within_bounds, C45_event_rate_value, C45_crossed_bounds, C45_woe_value, C45_woe_within_bounds, C45_numeric_special_missing, C45_bounds_special_missing_refuted, C58_empirical_special_is_nonevent_rate, C58_empirical_special_pure_is_zero, C58_empirical_missing_is_nonevent_rate, C58_empirical_event_rate_refuted, C58_woe_empirical_missing_raises, C45_divergences_nonnegative
* PsiPlotProps.v: C91_psi_single_bin_refuted, C91_progress_adds_refuted
* ScaledProps.v: C08_optimal_divergence, C29_optimal_divergence, C46_optimal_divergence, C65_optimal_divergence, C61_optimal_divergence
* ScenLifeProps.v: C88_not_fitted_iff, C88_fit_transform, C88_asking_changes_nothing, C88_fit_forgets_history, C88_results, C88_transform_rows, C88_failed_fit, C88_class_missing_refuted, C88_fixed_splits_fit_once_refuted, C88_json_round_trip, C88_json_integers_refuted, C88_json_transform_refuted, C88_refinements_accumulate_refuted, C88_scenario_ids_refuted
* ScoreLifeProps.v: C74_not_fitted, C74_table_after_fit, C74_reads, C74_fit_forgets_history, C74_score_is_points, C74_predict_as_trained, C74_columns, C74_missing_column, C74_failed_fit_keeps_table, C74_rejected_fit_harmless, C74_parameter_checks, C74_rejected_fit_changes_predict_refuted, C74_failed_binning_unfits_refuted, C74_failed_estimator_mixes_score_refuted, C74_stale_intercept_refuted
* ScoreProps.v: C39_score_is_sum_of_points, C39_unscaled_score_is_linear_predictor, C39_unknown_category_score_not_linear_refuted, C39_stale_intercept_refuted, C35_pdo_score, C35_points_at_odds, C35_doubling_odds_adds_pdo, C35_reverse_doubling_odds_adds_pdo, C35_reverse_points_at_odds_refuted, C36_min_max_range, C36_min_max_direction, C37_intercept_based, C38_nearest_rounding, C38_points_are_integers, C38_mip_rounding_in_range, C38_fallback_out_of_range_refuted, C38_min_not_attained_refuted
* StreamPlotsProps.v: C91_progress
* TablePlotProps.v: C89_fitted_binary, C89_missing_marker_refuted, C89_labels_refuted
* TwoDMIPProps.v: C68_gamma_optimal_divergence, C68_mip_optimal_divergence
* TwoDPairsProps.v: C75_tests_defined
* TwoDTableProps.v: C87_binary_columns, C87_binary_statistics, C87_cells, C87_binary_figure, C87_transform_woe, C87_binary_analysis, C87_unknown_test_refuted, C87_never_fails

## Axioms: `ClassicalDedekindReals.sig_forall_dec`, `ClassicalDedekindReals.sig_not_dec`, `FunctionalExtensionality.functional_extensionality_dep`

* ContLifeProps.v: C82_rows_after_any_history
* ContProps.v: C27_rows_exact, C27_transform_is_bin_mean, C27_weighted_std_refuted
* ContStdProps.v: C27_weighted_std, C27_unsplit_std_refuted
* ContTableProps.v: C69_columns, C69_totals, C69_iv_bounds, C69_fitted_rows_ok, C69_tests
* CounterLifeProps.v: C78_call_order, C78_failed_calls_keep_answers, C78_fit_forgets_history, C78_requests_accepted, C78_equal_choices_refuted, C78_second_row_refuted, C78_refitted_scorecard_refuted, C78_failed_fit_refuted
* CounterfactualProps.v: C63_probability
* MultiTableProps.v: C70_chi2, C70_merging_decreases_chi2, C70_multiclass_analysis, C70_binary_analysis
* PValueProps.v: C80_same_test, C80_analysis_pvalues, C80_nothing_else_forbidden, C80_continuous_pvalues, C80_fisher_refuted
* PWTableProps.v: C85_binary_build, C85_continuous_build, C85_totals_min_refuted, C85_compared_rows, C85_bins_compared, C85_dict_specials_compared_refuted, C85_dict_empty_special_refuted, C85_continuous_quality, C85_before_build, C85_history_free, C85_quality_of_analysis
* PrebinProps.v: C72_split_digits, C72_table_matches_transform
* StreamPlotsProps.v: C91_band
* TablePlotProps.v: C89_fitted_continuous
* TwoDTableProps.v: C87_continuous_figure, C87_continuous_statistics, C87_continuous_analysis, C87_continuous_nan, C87_continuous_quality_nan_refuted

## Axioms: `ClassicalDedekindReals.sig_forall_dec`, `FunctionalExtensionality.functional_extensionality_dep`

* ContTableProps.v: C69_merging_decreases_iv, C69_shift, C69_hhi_quality_range, C69_empty_rows_refuted, C69_missing_target_refuted
* CounterLifeProps.v: C78_generate_succeeds, C78_several_rows_refuted
* CounterfactualProps.v: C63_changes, C63_prediction, C63_diversity, C63_hierarchical, C63_outcome_without_proximity_refuted, C63_prediction_missing_row_refuted
* MIPProps.v: C64_requests_honoured, C64_valid_binning_feasible, C64_preprocessing_rejects_valid_refuted, C64_concave_rejects_two_bins_refuted, C64_tolerance_refuted
* MetricsProps.v: C18_pure_event_row_refuted, C22_ks_hhi_range, C22_ks_is_max_gap, C22_gini
* MonLifeProps.v: C76_fit_forgets_history, C76_unpopulated_bin_fails_refuted
* MultiMIPProps.v: C67_requests_per_class, C67_valid_binning_feasible, C67_heuristic_ignored_refuted, C67_concave_ignored_refuted, C67_preprocessing_rejects_valid_refuted
* MultiTableProps.v: C70_columns, C70_pure_neighbours
* PValueProps.v: C80_bayesian
* PiecewiseProps.v: C45_cont_within_bounds, C58_cont_empirical_means
* PsiPlotProps.v: C91_psi_errors, C91_psi_binary, C91_psi_continuous, C91_psi_failed_refit_refuted
* ScoreProps.v: C39_unknown_category_gets_missing_points_refuted
* TablePlotProps.v: C89_fitted_multiclass
* TwoDMIPProps.v: C68_mip_requests, C68_mip_larger_gamma
