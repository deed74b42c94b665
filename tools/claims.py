c("C01","proved","C01_split_partitions C01_nan_target_refuted","Proved as stated (target without NaN). Finding: with NaN in the target (accepted by default, check_input=False) a special sample is counted both as special and as missing.")
c("C02","proved","C02_unique_bin C02_transform_indices_is_bin C02_transform_value_is_bin","")
c("C03","proved","C03_after_any_history C03_table_matches_transform","Integral weights (unit 1), no outlier detector, dict special codes pairwise disjoint and not NaN; solver is an oracle returning a vector of the right length ending in True (C07 shows every feasible assignment does).")
c("C04","proved","C04_category_in_one_bin C04_table_matches_transform C04_bins_ordered_by_rate C04_others_are_rare C04_user_splits_loses_records_refuted C04_single_user_group_refuted","Without user_splits, as stated. Finding: with user_splits of a categorical variable records and categories can be lost (two witnesses).")
c("C05","proved","C05_refinement_correct","")
c("C06","proved","C06_fixed_splits_kept C06_fixed_splits_in_result C06_user_splits_any_order","Refinement and optimisation parts, and the whole fit of an object in any state for user splits given in any order.")
c("C07","proved","C07_assignments_are_partitions C07_every_prebin_once C07_every_partition_representable C07_solution_vector_shape","")
c("C08","proved","C08_objective_is_table_divergence C08_optimal_among_requests C08_optimal_divergence","The CP-SAT solver is trusted to return an optimal feasible assignment of the posted model.")
c("C09","proved","C09_number_of_bins C09_single_prebin_ignores_min_n_bins_refuted","Proved when an optimisation problem is solved. Finding: with a single prebin the status is OPTIMAL and min_n_bins is ignored.")
c("C10","proved","C10_bin_sizes","")
c("C11","proved","C11_monotone_trend C11_min_event_rate_diff C11_exact_monotone_refuted","Up to the resolution 1/M; the exact version is refuted.")
c("C12","proved","C12_peak_valley","Exact search and heuristic variants, up to the resolution 1/M.")
c("C13","proved","C13_concave_convex C13_rejects_two_bins_refuted","Soundness proved. Finding: the concave/convex models also reject valid binnings.")
c("C14","proved","C14_pvalue_honoured C14_only_violations_excluded","The statistical test itself is an arbitrary boolean function of two rows.")
c("C15","partial","C15_valid_binning_feasible_partial C15_trend_alone_feasible C15_preprocessing_rejects_valid_refuted","Completeness without the pre-processing cuts; with them (min_event_rate_diff = 0) it is false, witness given.")
c("C16","proved","C16_merge_preserves_counts","")
c("C17","proved","C17_no_solution_single_bin","")
c("C24","proved","C24_missing_value C24_special_value","")
c("C25","partial","C25_indices_identify_rows_partial C25_default_indices_refuted","Holds with metric_special=metric_missing='empirical'; false with the default arguments (0, 0): missing and special values get index 0, that of the first bin.")
c("C48","partial","C48_bounds_partial C48_both_bounds_refuted","False when both bounds are given: the upper bound is ignored (unreachable else branch).")
c("C18","proved","C18_table_columns C18_pure_event_row_refuted","Real arithmetic (no float rounding); both class totals positive. Finding: a row with only events is displayed with event rate 0.")
c("C19","proved","C19_divergences","Real arithmetic.")
c("C20","proved","C20_merging_decreases_divergence C20_pure_rows_refuted","For rows with both classes (guaranteed by the refinement for iv/js, C05); false when pure rows are merged, witness given.")
c("C21","proved","C21_woe_event_rate_inverse C21_transform_matches_table C21_transform_matches_table_categorical C21_int_unknown_truncates_refuted","Finding: an int cat_unknown makes numpy allocate an integer result, all WoE/event rates are truncated.")
c("C22","proved","C22_ks_hhi_range C22_ks_is_max_gap C22_gini C22_quality_score_range","")
c("C23","partial","C23_unknown_category_partial C23_default_unknown_refuted","Holds with an 'empirical' argument or without special/missing training records; false otherwise (witness).")
c("C27","partial","C27_rows_exact C27_transform_is_bin_mean C27_missing_and_special_rows C27_weighted_std C27_weighted_std_refuted C27_unsplit_std_refuted C27_fit_raises_refuted C27_stale_missing_stats_refuted","Counts, sums, zeros, min, max and transform means are exact for every fit; the standard deviation only with unit weights (refuted otherwise); with weights >= 0 it is a number, never below the weighted standard deviation, and equal exactly when every weight of a non-zero target is 0 or 1 (not so for a bin without splits: refuted). Fits that raise are characterised.")
c("C28","proved","C28_trend_honoured C28_min_mean_diff C28_pvalue_policy C28_bins_and_sizes C28_valid_binning_feasible C28_optimal_among_requests C28_peak_rejects_valid_refuted C28_small_targets_unordered_refuted","Up to the scaled-integer resolution 2/M (truncation towards zero). Findings: big-M of peak/valley too small for means of mixed sign; targets below 1e-6 not ordered.")
c("C51","partial","C51_gamma_penalises_size_spread C51_larger_gamma C51_continuous_gamma_ignored_refuted","Holds for a binary target; for a continuous target gamma has no effect.")
c("C29","partial","C29_trend_per_class C29_objective C29_optimal C29_optimal_divergence C29_valid_binning_feasible C29_heuristic_ignored_refuted C29_concave_ignored_refuted","Trends none/ascending/descending/peak/valley are honoured per class, up to the resolution 1/M; false for heuristic, concave and convex per-class trends, which the model silently ignores (multiclass_cp.py:99,103 compare the whole list). min/max_bin_size not modelled (the code passes a matrix).")
c("C52","partial","C52_table_exact C52_rare_class_lost_refuted","Exact for the classes present in the clean data; records of other classes are lost.")
c("C53","proved","C53_mean_woe","Real arithmetic.")
c("C32","proved","C32_quantile_rank_error C32_quantile_one_is_max C32_quantile_is_added_value C32_min_max_exact C32_quantile_zero_is_min_refuted C32_rank_error_after_merge_refuted","Rank error bound for every sequence of add/quantile/len calls and for merges of sketches small enough to be exact; quantile(1) is the maximum; quantile(0) need not be the minimum; after merging larger sketches the bound does not hold (both refuted with a concrete history).")
c("C33","partial","C33_count_exact C33_merge_total C33_weights_sum_to_count_partial C33_weights_at_least_count C33_weights_sum_after_merge_refuted","The count is exact for every history; the entry weights sum to it without lossy merges, and may exceed it after one (refuted).")
c("C34","partial","C34_reduction_counts_partial C34_no_interference_partial C34_order_independent_partial C34_categorical_reduction_partial C34_missing_only_lost_refuted C34_missing_only_overwritten_refuted C34_aliasing_refuted C34_categorical_aliasing_refuted","Heap model with aliasing. Exact for distributed reductions and for merges into sketches already holding clean records; the claim fails for sketches with only missing/special records and, through sharing, when sketches are re-used after merging into an empty one (or one lacking a category).")
c("C54","partial","C54_table_totals_partial C54_single_bin_counts_twice_refuted","Totals exact when a split survives; otherwise missing and special records are counted twice.")
c("C55","partial","C55_cumulated_counts_accurate C55_rows_exact_right_closed C55_transform_agrees_partial C55_transform_disagrees_refuted","Cumulated counts within the eps tolerance; the counting convention is right-closed while transform is left-closed, so values equal to a split are counted in another bin.")
c("C56","partial","C56_rows_match_bins_partial C56_others_and_order C56_refinement_collapses_refuted","Rows match bins with at most one refinement round; further rounds misplace splits and can collapse all bins.")
c("C35","partial","C35_pdo_score C35_points_at_odds C35_doubling_odds_adds_pdo C35_reverse_doubling_odds_adds_pdo C35_reverse_points_at_odds_refuted","Proved for reverse_scorecard=False (with and without intercept_based). With reverse_scorecard=True doubling the odds adds pdo, but the score at the given odds is off by 2*pdo*intercept/ln 2 because the intercept's sign is not reversed.")
c("C36","proved","C36_min_max_range C36_min_max_direction","Over the displayed points, both orientations, with and without intercept_based; needs two choices of rows with different unscaled totals (else the code divides by zero).")
c("C37","proved","C37_intercept_based","")
c("C38","partial","C38_nearest_rounding C38_points_are_integers C38_mip_rounding_in_range C38_fallback_out_of_range_refuted C38_min_not_attained_refuted","Any feasible solution of the rounding problem keeps all totals in [min, max]; nearest rounding moves a total by at most half a point per variable. The optimisation can be infeasible, and the fallback then leaves the range; an optimal solution need not attain min.")
c("C39","partial","C39_score_is_sum_of_points C39_unscaled_score_is_linear_predictor C39_unknown_category_gets_missing_points_refuted C39_unknown_category_score_not_linear_refuted C39_stale_intercept_refuted","Proved for samples whose values belong to a row of every table. Unknown categories get the points of the Missing row; a refit with intercept_based=False keeps the old intercept_.")
c("C40","proved","C40_parallel_fit_is_sequential C40_blocks_in_any_order C40_every_variable_fitted","For every number of jobs and every finishing schedule of the threads; fitting one variable is a pure function of its column and name (the solver's time limit is not modelled).")
c("C41","partial","C41_selected_meet_bounds C41_fixed_always_selected C41_at_most_top C41_best_ranked C41_exactly_top C41_total C41_refit_reordered_refuted","Proved for a new object, any order of ties. A refit after variable_names was reordered reads the statistics in the old order and selects wrong variables.")
c("C42","partial","C42_no_params C42_arguments_used C42_local_partial C42_chunks_partial C42_leak_refuted C42_chunk_leak_refuted C42_indices_truncate_refuted","Entries of a variable leak to later variables and, from disk, to later chunks; proved local / chunk independent when the key sets do not allow a leak. metric='indices' with a per-variable numeric metric truncates values.")
c("C57","partial","C57_support_after_summary C57_stale_support_refuted","Holds once summary() was called; stale until then.")
c("C30","partial","C30_auto_total C30_auto_heuristic C30_auto_fit C30_auto_respects_monotone C30_asc_desc_respects_monotone C30_asc_desc_reversed_refuted C30_reported_trend C30_reported_strict C30_ties_reported_as_peak_refuted C30_table_trend C30_table_trend_many_specials_refuted","Totality, the trend handed to the optimizer, the shape of the fitted table and the classification reported by analysis() are proved (convex-hull ratio arbitrary). auto_asc_desc reverses strictly monotone rates when one extreme prebin holds nearly all records; ties make analysis() report a non-decreasing table as a peak; several special rows are taken for bins.")
c("C31","partial","C31_valid_splits C31_pure_not_split C31_constant_not_split C31_first_split_maximises_gain C31_refit_accumulates C31_refit_refuted C31_stopping_rule_ignored_at_root_refuted C31_bins_smaller_than_leaf_refuted","Order, range and leaf sizes are proved for every gain and stopping function, optimality of the first split with the real entropies. Splits accumulate over fits; the first split ignores min_samples_split and the MDL criterion; with ties the left-closed bins of transform can be smaller than min_samples_leaf.")
c("C43","partial","C43_psi_divergence C43_psi_with_empty_bins C43_identical_data_nan_refuted C43_summary_skips_common_empty_bins C43_system_counts_everything C43_system_labels_refuted C43_variable_counts C43_actual_records_lost_refuted C43_missing_counted_as_first_bin_refuted","Divergence properties proved when no bin is empty, nan/inf characterised otherwise. System table counts everything (right-closed, labels left-closed). Variable tables drop actual records above the largest expected bin and count missing/special in the first bin.")
c("C44","partial","C44_gini_counts_pairs C44_gini_range C44_gini_perfect C44_gini_reversed C44_gini_constant_scores C44_gini_rank_based C44_ks_is_off_by_one C44_ks_perfect_separation_refuted C44_ks_range C44_confusion_metrics C44_single_label_fails_refuted C44_mpe_below_mape C44_mape_zero_iff_exact C44_smape_range C44_smape_symmetric","Gini, confusion and regression metrics proved. ks() subtracts 1/nonevents from the statistic, so it never reaches 1; a single label makes the confusion metrics fail.")
c("C45","partial","C45_event_rate_within_bounds C45_event_rate_value C45_crossed_bounds C45_woe_value C45_woe_within_bounds C45_numeric_special_missing C45_bounds_special_missing_refuted C45_table_counts C45_cont_within_bounds C45_divergences_nonnegative","Clean values are the bin's polynomial moved to the nearest admissible value (WoE: between the WoE of the bounds). Numeric or empirical special/missing values are not bounded (default 0 violates lb > 0). The regression that computes the coefficients (ropwr) is an arbitrary function.")
c("C58","partial","C58_empirical_special_is_nonevent_rate C58_empirical_special_pure_is_zero C58_empirical_missing_is_nonevent_rate C58_empirical_event_rate_refuted C58_woe_empirical_missing_raises C58_cont_empirical_means","Refuted for the binary target: the event and non-event counts are passed in the wrong order, so transform returns one minus the event rate shown in the table; WoE with empirical missing raises when no missing non-event was seen. Proved for the continuous target.")
c("C46","partial","C46_bins_partition_plane C46_table_counts C46_monotone_x C46_monotone_y C46_limits C46_solutions_are_the_valid_tilings C46_optimal C46_optimal_divergence C46_total C46_event_rate_transform C46_fit_succeeds_partial C46_no_split_fails_refuted C46_unknown_category_refuted","Strategy grid, binary target. Proved for every sound solver. Refuted parts: a sample both special and missing is counted in two rows; fit raises when all candidate rectangles have the same number of cells (e.g. no splits); an unseen category gets index 0. Optimality is stated without the gamma regularisation.")
c("C26","partial","C26_fit_forgets_history C26_refit_idempotent_partial C26_min_one_redundant C26_fixed_refit_raises C26_fixed_splits_refuted C26_refinement_count_refuted C26_empty_user_splits_refuted","Numerical OptimalBinning, any call history: without user_splits_fixed (and user_splits not empty) a fit gives the same outcome and the same answers to every further call as on a new object. With user_splits_fixed every second fit raises ValueError (numpy booleans written back into the parameter); information() reports accumulated refinements; user_splits=[] reuses stale special/missing counts. MDLP refits: C31.")
c("C49","partial","C49_not_fitted_iff C49_table_flags C49_failed_call_no_effect C49_failed_read_refuted","Exact characterisation over all call histories of OptimalBinning and its BinningTable; the claim that a failed call never makes the object fitted is refuted by read_json of a missing file.")
c("C50","partial","C50_table_round_trip_partial C50_to_json_succeeds C50_other_files_kept C50_integer_data_fails C50_resave_fails C50_transform_ignores_file C50_transform_refuted","The table round-trips; transform ignores the loaded splits (TypeError on a new object); integer data and re-saving a loaded object always raise TypeError after truncating the file. Numerical dtype.")
c("C59","partial","C59_failed_refit_keeps_results_partial C59_failed_refit_mixes_results_refuted","Holds when the new data have a clean record and user_splits is not empty; with no clean record the failed refit overwrites splits and counts but not the table.")
c("C60","proved","C60_bins_partition_plane C60_table_rows C60_std_defined C60_monotone_x C60_monotone_y C60_limits C60_mean_transform C60_mean_special_missing C60_optimal C60_optimal_deviation C60_deviations_cancel","Strategy grid; targets present; exact arithmetic (squared Std).")
c("C61","partial","C61_candidates C61_bins_partition_plane C61_table_counts C61_limits C61_monotone_y C61_monotone_x_partial C61_optimal C61_optimal_divergence C61_no_single_leaf_bin C61_two_leaves_fail C61_monotone_x_refuted C61_continuous_bins_partition_plane C61_continuous_table_rows C61_continuous_monotone_y","Everything but monotonic_trend_x: along x only bins touching the last row of their left neighbour are compared (monotone_x_partial), and a fit with a decreasing pair under ascending exists (monotone_x_refuted). Single leaves are never candidates, so trees with at most two leaves always fail.")
c("C47","proved","C47_flags C47_fit_succeeds C47_range_removes_few C47_zscore_removes_half C47_zscore_majority C47_units C47_order C47_yquantile_flags C47_split C47_outliers_only_from_clean","Exact arithmetic. Finding: when more than half of the values are equal the z-score flags all other values whatever the threshold; HDI with interval_length 1 raises ValueError; a negative k is accepted.")
c("C62","partial","C62_weighted_counts_partial C62_fractional_refuted C62_scale_refuted C62_balanced_totals C62_inputs_unchanged_partial C62_inputs_modified_refuted","Counts are exact for whole weights only: the fraction of a unit is dropped in every pre-bin, so merged bins and small weights are wrong (refuted). fit with class_weight writes into a float64 sample_weight array of the caller (refuted). Pre-binning splits are an arbitrary input of the model.")
c("C63","partial","C63_changes C63_outcome C63_probability C63_prediction C63_diversity C63_found_iff C63_weighted_optimal C63_hierarchical C63_max_changes C63_special_rows_refuted C63_outcome_without_proximity_refuted C63_prediction_missing_query_refuted C63_prediction_missing_row_refuted","Real arithmetic; every stage of the solver is optimal. Proved for tables with one special row (or special_missing=True) and objectives with proximity; existence and optimality for outcome types binary and continuous. Refuted: with a dict of two special codes special rows are offered although special_missing=False; without the proximity objective the score is not tied to the chosen bins; the query is transformed with metric_special=metric_missing=0 whatever the scorecard uses, and special_missing=True offers table values the default scorecard does not use, so that the prediction can differ from the outcome shown. Findings: fit with one variable raises LinAlgError.")
c("C64","partial","C64_requests_honoured C64_valid_binning_feasible C64_optimal_divergence C64_preprocessing_rejects_valid_refuted C64_concave_rejects_two_bins_refuted C64_tolerance_refuted","Real arithmetic for rates and divergences, divergence iv or js. Soundness for every trend; completeness and optimality for none/ascending/descending/peak/valley with min_event_rate_diff <> 0. Refuted: with min_event_rate_diff = 0 the pre-processing rejects valid groupings, the concave constraints reject two valid bins, and a solver value within tolerance of 0 becomes a split (astype(bool)), so max_n_bins can be exceeded.")
c("C65","partial","C65_tables_exact C65_requests_in_every_scenario C65_valid_binning_feasible C65_optimal C65_optimal_divergence C65_weights_partial C65_fit_terminates C65_zero_weight_raises C65_fixed_kept_partial C65_weights_truncated_refuted C65_no_split_crashes_refuted C65_fixed_split_lost_refuted C65_unsorted_fixed_refuted C65_refit_fixed_refuted C65_peak_shared_change_refuted","Soundness for every trend, completeness and optimality for none/ascending/descending/peak/valley. Weights are scaled and truncated to integers (proportional only for positive integer weights; 0.4 and 0.6 count the same), weight 0 raises. Refuted: fit raises when no split survives; a fixed split can be lost when the refinement removes another one (the optimiser gets the unfiltered flags) or when the user splits are not sorted; a second fit with fixed splits raises; a peak must turn at the same bin in all scenarios.")
c("C66","partial","C66_each_variable_alone C66_succeeds_iff C66_solved C66_n_samples_partial C66_options_partial C66_fit_params_override C66_missing_variable_raises C66_merge_needs_equal_options C66_transform_partial C66_transform_needs_solve C66_transform_missing_column C66_never_solved_with_criteria C66_merged_samples_refuted C66_selection_criteria_raise_refuted C66_max_bin_size_ignored_refuted C66_merge_new_raises_refuted C66_array_names_merge_raises_refuted C66_failed_merge_not_atomic_refuted C66_failed_add_not_atomic_refuted C66_transform_indices_bins_raise_refuted C66_transform_params_leak_refuted","Every variable is exactly its own OptimalBinningSketch, for every history, with arbitrary data sketches and solvers. Refuted: n_samples misses merged records; selection_criteria make solve raise (attribute fixed_variables is read but does not exist); max_bin_size is never handed over; merging with a process without data raises; names given as arrays cannot be merged (ambiguous comparison); a raising add or merge leaves earlier variables changed, so repeating it counts their records twice; metrics indices and bins are documented but rejected; metric_special/metric_missing entries leak into later variables.")
c("C67","partial","C67_requests_per_class C67_valid_binning_feasible C67_optimal_divergence C67_heuristic_ignored_refuted C67_concave_ignored_refuted C67_preprocessing_rejects_valid_refuted","Real arithmetic for rates and divergences; min_bin_size/max_bin_size not modelled (the code passes a matrix, see C29). Soundness and completeness for the trends with constraints (ascending, descending, peak, valley; completeness of ascending/descending with min_event_rate_diff <> 0). Refuted: heuristic, concave and convex trends of a class are accepted and ignored; with min_event_rate_diff = 0 the pre-processing rejects valid groupings.")
c("C68","proved","C68_gamma_allows_every_tiling C68_gamma_optimal C68_gamma_optimal_divergence C68_larger_gamma C68_mip_requests C68_mip_optimal_divergence C68_mip_larger_gamma","Strategy grid, binary target. Solver values exactly 0 or 1 (see C64_tolerance_refuted for what happens otherwise). The penalty per record is gamma divided by the records of all candidate rectangles together (cp_2d.py:51), not by the number of records, so it shrinks with the number of candidates; the scaled integer penalty is rounded up. Event rates compared exactly.")
c("C69","partial","C69_columns C69_totals C69_iv_bounds C69_fitted_rows_ok C69_merging_decreases_iv C69_shift C69_hhi_quality_range C69_tests C69_empty_rows_refuted C69_missing_target_refuted C69_totals_min_refuted","Real arithmetic; the p-value of scipy's Welch test is an arbitrary function into [0,1]; Std and Chow-type columns and the label formatting not modelled. Refuted: the WoE total (and through it the quality score) depends on empty Special/Missing rows, which count as bins of mean 0 (shifting the target by -1 changes the WoE from 4 to 2); one record without target makes IV, WoE and quality NaN while the Totals Mean divides by its record; a dict special code without records enters Totals Min/Max as 0.")
c("C70","proved","C70_js C70_merging_decreases_js C70_columns C70_hhi_quality_range C70_chi2 C70_merging_decreases_chi2 C70_multiclass_analysis C70_binary_analysis C70_pure_neighbours C70_quality_tests C70_others_row_excluded","Real arithmetic; p-values of scipy's chi-square distribution are an arbitrary function into [0,1]. scipy.stats.chi2_contingency is modelled by its documentation (Pearson statistic without correction, ValueError when an expected frequency is zero). With divergence hellinger/triangular the refinement is skipped; the analysis is then defined only because the optimiser is asked for one event and one non-event per bin (C70_pure_neighbours shows the failure without that).")
c("C71","partial","C71_each_variable C71_selection C71_fit_forgets_history C71_not_fitted C71_fit_disk_is_fit C71_fit_from_dict_is_fit C71_support_and_transform C71_update C71_parameter_ranges C71_summary C71_information C71_fit_from_dict_requires C71_max_bin_size_ignored_refuted C71_dotted_path_refuted C71_failed_refit_mixes_refuted C71_failed_refit_breaks_summary_refuted C71_failed_refit_wrong_width_refuted C71_unfitted_update_refuted C71_continuous_piecewise_update_refuted C71_pending_update_refuted C71_information_dtype_refuted","The per-column fit, statistics and transform are arbitrary functions; n_jobs=1 (parallel fit maps the same function); logging not modelled. Refuted: max_bin_size of the process never reaches the variables; fit_disk/transform_disk take the text after the first dot as extension, so './data.csv' is rejected; a failed refit is not atomic (replaced variables, target type, number of variables), after which summary() raises or mixes; update_binned_variable accepts unfitted objects and a ContinuousOptimalPWBinning on which summary() raises; an update pending at fit() stays pending; information() counts guessed types, not those of binning_fit_params.")
c("C72","partial","C72_rounding C72_cart_splits C72_min_prebin_size C72_split_digits C72_table_matches_transform C72_cart_threshold_minus_two_refuted C72_fixed_split_moved_refuted C72_min_size_lost_by_rounding_refuted C72_categorical_digits0_refuted","The tree is arbitrary (sklearn's growing is not modelled, only that its leaves hold min_samples_leaf records and that no record lies on a threshold); np.round is exact on decimals. Refuted: a genuine threshold equal to -2 is dropped (prebinning.py:119 confuses it with the marker of a leaf), so moving the data by 1 changes the number of bins; split_digits moves splits the user declared fixed, can leave a bin with fewer than min_prebin_size records, and with split_digits=0 moves or removes the splits j+0.5 of a categorical variable. OptimalBinningSketch and OptimalBinning2D accept split_digits and never read it.")
c("C73","partial","C73_number_text C73_label_shows_bin C73_labels_distinct C73_transform_bins C73_same_text_same_row C73_labels_collide_refuted C73_label_misleads_refuted C73_special_key_refuted","Numerical variables (labels of categorical bins are numpy's printing of arrays, not modelled; a split -0.0 is printed '-0.00' and not modelled). Labels are distinct exactly when no three consecutive splits print alike. Refuted: with the default two digits the bins of splits 0.001, 0.002, 0.003 include two rows '[0.00, 0.00)' and transform(metric='bins') merges their records; the bin starting at 0.996 is shown as '[1.00, inf)'; a special_codes key 'Missing' labels special and missing records alike.")
c("C74","partial","C74_not_fitted C74_table_after_fit C74_reads C74_fit_forgets_history C74_score_is_points C74_predict_as_trained C74_columns C74_missing_column C74_failed_fit_keeps_table C74_rejected_fit_harmless C74_parameter_checks C74_rejected_fit_changes_predict_refuted C74_failed_binning_unfits_refuted C74_failed_estimator_mixes_score_refuted C74_stale_intercept_refuted","Real arithmetic; the binning process, estimator and solver are arbitrary functions. Refuted: a fit rejected because X is not a DataFrame already overwrote metric_special / metric_missing, so predict changes; a fit whose binning fails leaves an unfitted binning_process_ (predict and score raise NotFittedError, table still answers); a fit whose estimator fails leaves the new bins with the old points, so score mixes them; refitting with intercept_based=False after True keeps the old intercept_. Not modelled: descriptive table columns, information, save/load, type checks of parameters.")
c("C75","proved","C75_pairs C75_pairs_cart C75_pairs_continuous C75_pairs_continuous_cart C75_tests_defined","Assumes a solver whose answers satisfy the constraints and increasing prebinning splits. The p-values of scipy are an arbitrary function into [0, 1]; Welch's t of the continuous table is not modelled. Finding: analysis() before build() raises AttributeError, because the paths are computed in build().")
c("C76","partial","C76_not_fitted C76_fit_forgets_history C76_only_fit_changes_answers C76_binary_tables C76_unpopulated_bin_fails_refuted C76_variable_tables C76_refitted_scorecard_refuted C76_continuous_tables C76_report C76_binary_report C76_failed_refit_mixes_refuted","Assumes increasing pre-binning splits. Refuted parts: a score bin that one data set does not reach, or that holds a single class, makes fit raise ValueError (scipy) after the PSI table was replaced, so an object fitted before then shows the new PSI table next to the old tests and variable tables; psi_variable_table(name) is checked against the scorecard of today, not the monitored one. Not modelled: Std and percentiles, p-values, regression metrics, plots.")
c("C77","partial","C77_assignments_are_partitions C77_requests_honoured C77_valid_binning_feasible C77_optimal_divergence C77_no_solution_single_bin C77_preprocessing_rejects_valid_refuted C77_concave_rejects_two_bins_refuted C77_fit_raises_refuted","As the code stands every fit with solver='ls' that reaches the optimiser raises ValueError: ls.py:52 unpacks six values of the five model_data returns (C77_fit_raises_refuted). The other theorems are about the optimisation model as written, i.e. once that line is repaired. LocalSolver trusted to report assignments satisfying the constraints. Divergence iv or js. Soundness for every trend; completeness and optimality for trends none, ascending, descending, peak, valley (ascending/descending with min_event_rate_diff > 0). Refuted parts: with min_event_rate_diff = 0 the pre-processing excludes a partition with increasing rates; the concave model excludes a partition into two bins. ls.py does not read max_pvalue and gamma, and min_event_rate_diff only for ascending, descending and heuristics (documented).")
c("C78","partial","C78_call_order C78_failed_calls_keep_answers C78_fit_forgets_history C78_requests_accepted C78_counterfactuals C78_generate_succeeds C78_equal_choices_refuted C78_several_rows_refuted C78_second_row_refuted C78_refitted_scorecard_refuted C78_failed_fit_refuted","Real arithmetic; the solver is trusted to answer with assignments satisfying the constraints; the numerical part of fit (covariance, Cholesky factor) is an oracle that may raise. What is displayed: with the proximity objective (default), tables with one special row. Refuted parts: if all features have the same number of rows to move to (always for one variable), generate raises IndexError although a solution was found (numpy object array), and status is already that of the failed call while display shows the old result; with several rows in the query it raises if any feature is moved, otherwise shows the outcome of the first row for all; after the scorecard was refitted, new tables are combined with old coefficients; a failed fit replaces the variable names. TypeErrors of wrongly typed arguments are not modelled.")
c("C79","partial","C79_one_variable C79_two_variables C79_piecewise C79_streams C79_process C79_scorecard C79_criteria C79_arguments C79_errors C79_nan_refuted C79_bsketch_eps_refuted C79_numpy_flags_refuted C79_pw_prebins_refuted C79_pw_yquantile_refuted C79_cont_2d_mdlp_refuted C79_sketch_ls_refuted C79_criteria_refuted C79_numpy_int_refuted","Exact acceptance for all classes and values (equivalences). Refuted parts: nan is accepted as gamma, time_limit, min_mean_diff, pdo; BSketch accepts every float as eps ('and' for 'or'); arrays of numpy booleans are rejected as user_splits_fixed (documented array-like); the piecewise classes do not check max_n_prebins, and OptimalPWBinning accepts the yquantile detector, so that the inner fit raises later; ContinuousOptimalBinning2D accepts prebinning_method='mdlp', on which pre-binning always raises; OptimalBinningSketch documents solver='ls' and rejects it; contradictory selection criteria are accepted, unknown keys raise KeyError; numpy integers are rejected as cat_unknown for metric='indices'. Simplifications: dict keys are strings; arrays of one element compare like their element. Per-variable binning_fit_params are not modelled here (C71).")
c("C80","partial","C80_same_test C80_analysis_pvalues C80_nothing_else_forbidden C80_continuous_pvalues C80_bayesian C80_fisher_refuted","Real arithmetic; numerical variables, divergence iv or js (no pure prebin), solver cp. scipy's distributions enter through their laws only (chi-square with one degree of freedom = square of the normal). Refuted for pvalue_test='fisher': for every law there is a fit meeting a max_pvalue below 1 whose Fisher p-value is 1.")
c("C81","partial","C81_answers_of_the_last_solve C81_rows_count_the_records_partial C81_statistics C81_exact_sketches_forget_the_history C81_solve_needs_an_own_add C81_merge_with_new_object_raises C81_categorical_answers C81_solving_twice_changes_the_binning_refuted C81_merged_records_not_solved_refuted C81_information_raises_refuted C81_failed_categorical_solve_refuted","sketch='gk'; cat_heuristic=False; an object given to merge is not used afterwards (C34 covers aliasing). Refuted: outside the exact regime solving twice in a row may change the binning (the bins computation compresses the sketches); an object whose own add calls were all refused cannot solve merged data; information() raises AttributeError when no solve ran the optimizer; a categorical solve that raises leaves new categories with old splits, so splits/transform disagree with the table.")
c("C82","partial","C82_not_fitted_iff C82_fit_forgets_history C82_missing_row_history C82_missing_row_any_history C82_rows_after_any_history C82_refinement_count C82_failed_refit_keeps_results_partial C82_json_round_trip C82_transform_ignores_file C82_stale_totals_refuted C82_failed_refit_mixes_results_refuted C82_fixed_splits_refuted C82_refinement_count_refuted","dtype numerical, split_digits=None, no outlier detector. Refuted: Std, Min and Max of the Missing row (and so Min and Max of the Totals row) survive from the last data set with missing records, the exact rule is C82_missing_row_history; a fit that raises because the data have no clean record replaces the split points and status but keeps the table; with user_splits_fixed a second fit raises ValueError; the number of refinements adds up over fits; transform does not use what read_json loaded.")
c("C83","partial","C83_not_fitted_iff C83_fit_forgets_history C83_table_of_the_last_fit C83_failed_refit C83_failed_regression_index_error C83_binary_fit_transform C83_continuous_fit_transform C83_estimator_parameter C83_status_words C83_infeasible_refuted C83_continuous_fit_transform_refuted C83_failed_refit_refuted","No outlier detector, set_params not used. Refuted: ContinuousOptimalPWBinning.fit_transform passes check_input as lb to fit (continuous_binning.py:247), so the regression is bounded below by 0 (1 with check_input=True) and the caller's bounds do not reach it; a failed refit leaves a mixture (exact rule: C83_failed_refit); retrieve_status reports 'infeasible' as FEASIBLE because it searches for the word 'feasible'. The regression (ropwr), the estimator and the metrics are arbitrary functions.")
c("C84","partial","C84_not_fitted_iff C84_fit_forgets_history C84_refinement_count C84_table_after_any_history C84_transform_after_any_history C84_failed_refit_keeps_results_partial C84_failed_refit_classes C84_json_round_trip C84_transform_ignores_file C84_failed_refit_classes_refuted C84_failed_refit_mixes_results_refuted C84_fixed_splits_refuted C84_refinement_count_refuted C84_second_save_refuted","split_digits=None, no outlier detector. Refuted: a refit that raises after preprocessing replaces the classes attribute by the labels of the failed data (exact rule C84_failed_refit_classes), and one on data without a clean record also replaces the split points but not the table; with user_splits_fixed a second fit raises; information() adds up the refinements of all fits; after read_json transform, splits and classes do not use the file; a table read from a file with a list of special codes cannot be saved again (TypeError, truncated file).")
c("C85","partial","C85_binary_build C85_continuous_build C85_build_after_fit C85_compared_rows C85_bins_compared C85_binary_analysis C85_analysis_never_raises C85_continuous_quality C85_before_build C85_history_free C85_quality_of_analysis C85_totals_min_refuted C85_dict_specials_compared_refuted C85_dict_empty_special_refuted","Performance metrics are given numbers and the significance tests functions (scipy). Refuted: with a dict of special codes analysis() compares all but the last special row as if they were bins (exact rule C85_compared_rows), and raises ValueError if one of them has no record (exact rule C85_binary_analysis); Min and Max of the continuous Totals row leave out the special rows and Missing; the continuous table has no statistics and no quality_score (AttributeError, C85_before_build).")
c("C86","partial","C86_not_fitted_iff C86_fit_forgets_history C86_fit_transform C86_fit_transform_points C86_transform_rejects C86_binary_results C86_continuous_results C86_plane_after_any_history C86_failed_refit C86_to_json_never_works C86_read_json C86_analysis_needs_build C86_failed_refit_swaps_categories_refuted C86_failed_refit_status_refuted C86_failed_read_json_counts_as_fitted_refuted","Metrics woe and bins, and plots, are not modelled; pre-binning, tree, solver, significance tests and file contents are arbitrary functions or values. Refuted: after a refit that raises in the solver, a categorical variable has new categories and old bins, so transform and splits change while the table does not (with two numerical variables nothing about the bins changes, C86_failed_refit); a refit that raises IndexError (all candidate rectangles of the same size) leaves its own status behind; to_json always raises AttributeError (C86_to_json_never_works); read_json puts a one-dimensional table in its place, and makes an object that was never fitted count as fitted, even if the file cannot be read; analysis before build raises AttributeError, not NotFittedError (C86_analysis_needs_build).")
c("C87","partial","C87_binary_columns C87_binary_statistics C87_cells C87_binary_figure C87_continuous_figure C87_transform_woe C87_binary_analysis C87_unknown_test_refuted C87_continuous_statistics C87_continuous_analysis C87_history C87_never_fails C87_continuous_nan C87_continuous_quality_nan_refuted","Real numbers instead of floats; labels of the bins, the Bayesian columns, printed report, colours and axes of the figure are not modelled; chi2_contingency, fisher_exact and ttest_ind_from_stats are arbitrary functions with p-values in [0,1] (the last with scipy's NaN rule in C87_continuous_nan). Refuted: analysis accepts every name other than chi2 and silently means fisher (C87_unknown_test_refuted); with a continuous target the quality score is NaN as soon as two neighbouring bins are constant with equal means (C87_continuous_quality_nan_refuted; exactly then, C87_continuous_nan); and analysis before build raises AttributeError, not NotFittedError (part of C87_never_fails).")
c("C88","partial","C88_not_fitted_iff C88_fit_transform C88_asking_changes_nothing C88_fit_forgets_history C88_results C88_prebinning_input C88_transform_rows C88_failed_fit C88_class_missing_refuted C88_fixed_splits_fit_once_refuted C88_json_round_trip C88_json_integers_refuted C88_json_transform_refuted C88_refinements_accumulate_refuted C88_scenario_ids_refuted","Real numbers instead of floats; metric 'bins', set_params, the table flags (C49) and the printed reports are not modelled; prebinning, rounding and solver are arbitrary functions (lenv_ok). Refuted: a fit in which some scenario has no clean record of one class raises and leaves a fitted object with status 0 (OPTIMAL), no splits, every index 0 and the old table (C88_class_missing_refuted); a failed call with fewer scenarios makes binning_table_scenario refuse ids whose tables still exist; n_refinements accumulates over fits; with user_splits_fixed every fit after the first successful one raises ValueError; to_json raises TypeError and truncates the file when all X are of an integer dtype; read_json does not restore splits, status, transform or the scenario tables.")
c("C89","partial","C89_accepted_iff C89_bars C89_markers C89_labels C89_actual C89_history C89_fitted_binary C89_fitted_continuous C89_fitted_multiclass C89_missing_marker_refuted C89_labels_refuted","A figure is the data handed to matplotlib: heights, positions, line vertices, markers, segments, tick labels and legend entries; colours, fonts and the saved file are not modelled. Refuted: with add_special=False and add_missing=True the marker of the missing bar is at the metric of the first special row (C89_markers says exactly when the markers are right); with add_special=False and show_bin_labels=True only one special label is dropped, so with several special rows the missing bar carries the label of a special code (C89_labels gives the exact condition). A multiclass table with more than 100 classes cannot be drawn (part of C89_fitted_multiclass).")
c("C90","partial","C90_cap_curve C90_cap_gini C90_ks C90_roc C90_rejected_iff C90_history C90_saved C90_ks_value_refuted C90_ties_refuted C90_overlay_refuted","A figure is the list of curves handed to pyplot with the numbers in the labels; argsort is any function that sorts, roc_curve any function, roc_auc_score is modelled in its pair-counting form. Refuted: the KS figure counts one non-event too few at every score (cum_population = arange(0, n) instead of 1..n), so the number shown is the KS statistic minus 1/#non-events (exactly so when no scores are equal, C90_ks): 0% for perfectly separated [0;1], -100% for [1;0]. Refuted: with equal scores the CAP curve and the KS number depend on the order argsort gives them: the CAP curve of a constant score can be the perfect model's, with Gini = 0 in its label. Refuted: a figure that was not saved stays open, so the next saved file contains its curves too.")
c("C91","partial","C91_progress C91_band C91_psi_errors C91_psi_binary C91_psi_continuous C91_psi_single_bin_refuted C91_psi_failed_refit_refuted C91_progress_adds_refuted","Figures are the positions, heights, lines, band and numbers handed to matplotlib (texts and colours are not modelled); real numbers for floats in the divergences. Refuted: a monitoring that is fitted, whose tables all answer, cannot be drawn when the scores have one bin (np.min of an empty array: ValueError). Refuted: after a fit that failed half-way (a new population leaves a score bin) psi_plot shows the bars of the old populations with the event rates of the new ones (_metric_a/_metric_e are assigned before the tests that raise, _n_records_a/_n_records_e after). Refuted: the title of plot_progress counts the object's own calls of add but the records of merged sketches too.")
c("C92","partial","C92_rows C92_all_counted C92_zscore_quarter C92_equal_tailed_bound C92_density_second_pass C92_zscore_majority C92_second_pass_refuted","Exact arithmetic (as C47). Refuted: records that are no outliers of the data are missing from the binning table: the outer object removes the outliers and hands the same detector to the inner binning, which removes the outliers of what is left (default parameters, [1,2,3,4,5,10,100]: 100 and then 10); the regression and the metrics still use them, so table, WoE and coefficients describe different data.")
c("C93","partial","C93_valid C93_error C93_splits C93_uniform C93_quantile_counts C93_order C93_units C93_min_collapse C93_ignored C93_min_size_refuted C93_unit_refuted","Exact arithmetic; KBinsDiscretizer is modelled as released (validation, linspace, linear percentiles, the 1e-8 tolerance), without its random subsample above 200000 records. Refuted: that every pre-bin has at least min_prebin_size records (uniform leaves pre-bins empty; min_bin_size is not passed on), and that quantile splits are independent of the unit of the variable (the tolerance is absolute: values closer than 1e-8 get no split).")
c("C94","partial","C94_auto_request C94_auto_sound C94_order_and_unit C94_named_trend C94_subsample C94_ties_refuted C94_subsample_all_refuted C94_stratified_refuted C94_table_shape C94_table_shape_refuted","The regression itself (ropwr) is not modelled, only what it is asked; train_test_split is modelled by its permutation. Refuted: that non-decreasing bin means are asked as ascending (a tie makes them a peak), that the trend asked agrees with the table's Mean column when there is an outlier detector (it can be the opposite), that n_subsamples equal to the number of clean records works (ValueError, while one fewer and one more are accepted), and that the subsample reaches every bin.")
