{"id": "C01", "title": "Fit partitions the samples", "statement": "When the target has no missing values, fit() assigns every input sample to exactly one of clean, special and missing, keeps input order, and keeps each sample's target and weight attached to it; nothing is dropped or counted twice.", "quantifier": "all sample arrays, weights and special-code collections", "why_tests_cant": "the sets of missing/special/clean patterns is unbounded", "anchors": ["optbinning/binning/preprocessing.py:split_data"]}
{"id": "C02", "title": "Every numerical value falls in exactly one bin", "statement": "For any increasing split points, every non-missing non-special value has exactly one bin index i in 0..n_splits, and it is the one whose displayed half-open interval [s_{i-1}, s_i) contains the value; splits themselves belong to the bin on their right.", "quantifier": "all split lists and all values", "why_tests_cant": "boundary behaviour must hold for all values and all splits", "anchors": ["optbinning/binning/transformations.py:transform_binary_target", "optbinning/binning/binning_statistics.py:bin_str_format"]}
{"id": "C03", "title": "Binning table agrees with transform on the training data", "statement": "After fit() on a numerical variable (binary target), the Event / Non-event count in each row of the binning table equals the number (weight) of training samples that transform(metric='indices', 'empirical') sends to that row, for clean, special and missing rows alike.", "quantifier": "all training sets, special codes, prebin splits and solver solutions", "why_tests_cant": "relates two separate code paths over all inputs", "anchors": ["optbinning/binning/binning.py:_fit", "optbinning/binning/binning.py:_compute_prebins", "optbinning/binning/binning_statistics.py:bin_info", "optbinning/binning/transformations.py:transform_binary_target"]}
{"id": "C04", "title": "Every category is in exactly one bin", "statement": "For a categorical variable fitted without user_splits, every training category (clean or 'others') is listed in exactly one bin of `splits`, and transform sends the category to the index of the bin that lists it; unknown categories get cat_unknown.", "quantifier": "all category multisets and split vectors", "why_tests_cant": "all category sets and orders", "anchors": ["optbinning/binning/binning_statistics.py:bin_categorical", "optbinning/binning/transformations.py:_apply_transform"]}
{"id": "C05", "title": "Pre-bin refinement terminates, keeps records and leaves no pure prebin", "statement": "The refinement recursion on prebin split points always terminates; the final splits are a subsequence of the initial ones and strictly increasing; with iv/js divergence either no split is left or every prebin has at least one event and one non-event; total event and non-event counts are those of the clean data.", "quantifier": "all data, weights and sorted split lists", "why_tests_cant": "termination and post-condition over all data sets", "anchors": ["optbinning/binning/binning.py:_compute_prebins"]}
{"id": "C06", "title": "User-fixed splits are never silently dropped", "statement": "If user_splits_fixed marks a split as fixed, then either fit() raises, or the fixed split is still a split after refinement and is selected in every solution feasible for the optimisation model.", "quantifier": "all data, user splits, fixed flags, solver solutions", "why_tests_cant": "depends on all data-dependent refinement paths", "anchors": ["optbinning/binning/binning.py:_compute_prebins", "optbinning/binning/cp.py:add_constraint_fixed_splits"]}
{"id": "C07", "title": "Solver solutions are contiguous partitions of the prebins", "statement": "Any 0/1 matrix satisfying the structural constraints of the optimisation model describes a partition of the prebins into consecutive groups: each prebin is in exactly one group, groups are intervals, the last prebin ends a group, and conversely each such partition is representable.", "quantifier": "all n and all 0/1 matrices", "why_tests_cant": "exponentially many assignments for every n", "anchors": ["optbinning/binning/cp.py:add_constraint_unique_assignment", "optbinning/binning/cp.py:add_constraint_continuity", "optbinning/binning/mip.py"]}
{"id": "C08", "title": "The optimiser maximises the total divergence of the merged bins", "statement": "For a feasible assignment the linear objective equals the sum, over the groups of the partition, of the divergence contribution of the merged group.", "quantifier": "all n, all feasible assignments, all divergence matrices", "why_tests_cant": "for all assignments", "anchors": ["optbinning/binning/cp.py:build_model", "optbinning/binning/cp.py:decision_variables", "optbinning/binning/model_data.py:model_data"]}
{"id": "C09", "title": "min_n_bins / max_n_bins are respected", "statement": "If the solver reports a feasible solution, the number of bins returned lies in [min_n_bins, max_n_bins].", "quantifier": "all feasible solutions", "why_tests_cant": "for all solver outputs", "anchors": ["optbinning/binning/cp.py:add_constraint_min_n_bins", "optbinning/binning/cp.py:add_constraint_max_n_bins", "optbinning/binning/cp.py:add_max_n_bins_constraint"]}
{"id": "C10", "title": "Bin size, event and non-event count limits are respected", "statement": "If the solver reports a feasible solution, the record / event / non-event count of each returned bin lies within min/max_bin_size, min/max_bin_n_event and min/max_bin_n_nonevent.", "quantifier": "all feasible solutions, counts and limits", "why_tests_cant": "for all solver outputs", "anchors": ["optbinning/binning/cp.py:add_constraint_min_bin_size_n_event_n_nonevent"]}
{"id": "C11", "title": "Ascending / descending trends are honoured", "statement": "With monotonic_trend ascending/descending, in every feasible solution the event rates of consecutive bins are monotone with at least min_event_rate_diff between consecutive bins, up to the resolution of the scaled integers used by the CP solver (exactly, for MIP).", "quantifier": "all counts, all feasible solutions", "why_tests_cant": "universal over solver outputs", "anchors": ["optbinning/binning/cp.py:add_constraint_monotonic_ascending", "optbinning/binning/model_data.py:model_data"]}
{"id": "C12", "title": "Peak / valley trends are honoured", "statement": "With monotonic_trend peak (valley), in every feasible solution the bin event rates first do not decrease (increase) and then do not increase (decrease), with at most one change point (up to the resolution 1/M of the scaled integers used by the CP solver).", "quantifier": "all counts, all feasible solutions", "why_tests_cant": "universal over solver outputs", "anchors": ["optbinning/binning/cp.py:add_constraint_monotonic_peak_valley", "optbinning/binning/cp.py:add_constraint_monotonic_peak_heuristic"]}
{"id": "C13", "title": "Concave / convex trends are honoured", "statement": "With monotonic_trend concave (convex), for every three increasing bins the event rates satisfy the mid-point condition (up to the resolution 1/M of the scaled integers used by the CP solver).", "quantifier": "all counts and feasible solutions", "why_tests_cant": "universal over solver outputs", "anchors": ["optbinning/binning/cp.py:add_constraint_monotonic_concave"]}
{"id": "C14", "title": "max_pvalue / min_event_rate_diff constraints are honoured", "statement": "If a pair of candidate bins is declared in violation of the p-value (or minimum difference) requirement, no feasible solution contains both bins (consecutive bins or all pairs, depending on the policy); pairs not in violation are not excluded by it.", "quantifier": "all violation sets and feasible solutions", "why_tests_cant": "universal over solver outputs", "anchors": ["optbinning/binning/cp.py:add_constraint_violation", "optbinning/binning/model_data.py:find_pvalue_violation_indices"]}
{"id": "C15", "title": "A valid monotone binning is not rejected", "statement": "If some partition of the prebins satisfies the requested monotonic trend and all size limits, the optimisation model does not report INFEASIBLE (its pre-processing constraints only remove sub-optimal or invalid solutions).", "quantifier": "all counts and partitions", "why_tests_cant": "universal", "anchors": ["optbinning/binning/cp.py:add_constraint_preprocessing_ascending", "optbinning/binning/cp.py:add_constraint_monotonic_ascending"]}
{"id": "C16", "title": "Merging prebins preserves all counts", "statement": "Post-processing of a solution yields one table row per selected group whose counts are the sums over its prebins, followed by others/special/missing rows; total counts are preserved.", "quantifier": "all solutions and count vectors", "why_tests_cant": "universal", "anchors": ["optbinning/binning/binning_statistics.py:bin_info", "optbinning/binning/binning_statistics.py:multiclass_bin_info", "optbinning/binning/binning_statistics.py:continuous_bin_info"]}
{"id": "C17", "title": "Infeasible or timed-out solves degrade to a single bin", "statement": "If the solver returns no feasible solution, the result has no split points and a single clean bin holding all clean records.", "quantifier": "all data, any solver failure", "why_tests_cant": "universal over data", "anchors": ["optbinning/binning/cp.py:solve", "optbinning/binning/mip.py:solve", "optbinning/binning/binning.py:_fit_optimizer"]}
{"id": "C18", "title": "Binning table totals and proportions", "statement": "In the table built for a binary target the Totals row is the column sum, Count (%) entries are in [0,1] and sum to 1, each event rate is in [0,1], and WoE = ln(p_nonevent / p_event) for each row with both classes and 0 otherwise.", "quantifier": "all count vectors with at least one event and one nonevent", "why_tests_cant": "universal", "anchors": ["optbinning/binning/binning_statistics.py:BinningTable.build"]}
{"id": "C19", "title": "Divergences are non-negative and bounded", "statement": "IV, Jensen-Shannon, Hellinger and triangular values reported are >= 0; they are 0 when event and non-event distributions coincide on the rows with both classes, and only then; JS <= ln 2, Hellinger <= 1, triangular <= 2.", "quantifier": "all count vectors", "why_tests_cant": "universal over reals", "anchors": ["optbinning/binning/metrics.py:jeffrey", "optbinning/binning/metrics.py:jensen_shannon", "optbinning/binning/metrics.py:hellinger", "optbinning/binning/metrics.py:triangular"]}
{"id": "C20", "title": "Merging bins never increases divergence", "statement": "The IV, JS, Hellinger and triangular divergence of a coarser binning is never larger than that of the finer binning it was merged from.", "quantifier": "all count vectors and partitions", "why_tests_cant": "universal", "anchors": ["optbinning/binning/metrics.py", "optbinning/binning/model_data.py"]}
{"id": "C21", "title": "WoE and event rate transforms are mutually inverse and agree with the table", "statement": "transform_woe_to_event_rate inverts transform_event_rate_to_woe for event rates in (0,1); WoE is strictly decreasing in the event rate; transform(metric='woe') returns for each clean value the WoE displayed in the row of its bin.", "quantifier": "all event rates / counts", "why_tests_cant": "universal over reals", "anchors": ["optbinning/binning/transformations.py:transform_event_rate_to_woe", "optbinning/binning/transformations.py:transform_woe_to_event_rate"]}
{"id": "C22", "title": "Summary indices are in range", "statement": "KS in [0,1]; HHI in [1/n,1]; normalised HHI in [0,1]; Gini in [-1,1] (in [0,1] after the internal sort) and independent of row order up to ties; quality score in [0,1] whenever p-values are in [0,1].", "quantifier": "all count vectors", "why_tests_cant": "universal over reals", "anchors": ["optbinning/binning/metrics.py:hhi", "optbinning/binning/metrics.py:gini", "optbinning/binning/metrics.py:binning_quality_score", "optbinning/binning/binning_statistics.py:BinningTable.build"]}
{"id": "C23", "title": "Unknown categories transform to the mean event rate / zero WoE", "statement": "With cat_unknown=None, a category not seen in training transforms to the overall mean event rate (metric='event_rate') and to WoE 0 (metric='woe').", "quantifier": "all fitted tables", "why_tests_cant": "universal; fails only for tables with special/missing rows", "anchors": ["optbinning/binning/transformations.py:transform_binary_target"]}
{"id": "C24", "title": "Special and missing values get the configured value", "statement": "A missing value transforms to the Missing-row metric when metric_missing='empirical' and to the given number otherwise; the same for special values (per key for dict special codes).", "quantifier": "all values, codes and tables", "why_tests_cant": "universal", "anchors": ["optbinning/binning/transformations.py:_apply_transform"]}
{"id": "C25", "title": "Bin indices identify the bin", "statement": "With metric='indices' and default arguments, two values get the same index only if they are in the same row of the binning table.", "quantifier": "all values and tables", "why_tests_cant": "universal", "anchors": ["optbinning/binning/transformations.py:_apply_transform"]}
{"id": "C26", "title": "Refitting is idempotent", "statement": "Calling fit() on an object with any call history (earlier fits on other data, failed fits, transforms, set_params, json) raises the same exception or gives the same splits, table, status and transform results as calling it on a new object with the same parameters; in particular fitting twice with the same data equals fitting once.", "quantifier": "all parameters, data and call histories (numerical dtype; optimiser and prebinning deterministic)", "why_tests_cant": "history property", "anchors": ["optbinning/binning/binning.py:_fit", "optbinning/binning/mdlp.py:MDLP"]}
{"id": "C27", "title": "Continuous-target merge is exact", "statement": "For a continuous target, each merged bin reports the exact count, sum, zero count, min and max of its prebins, its mean is sum/count, and its reported standard deviation is the population standard deviation of the merged records.", "quantifier": "all prebin statistics and solutions", "why_tests_cant": "universal over reals", "anchors": ["optbinning/binning/binning_statistics.py:continuous_bin_info", "optbinning/binning/binning_statistics.py:nstd"]}
{"id": "C28", "title": "Continuous-target trends are honoured", "statement": "For a continuous target, ascending/descending (and min_mean_diff) and peak/valley requests hold for the bin means of every feasible solution (in scaled integers).", "quantifier": "all mean matrices, feasible solutions", "why_tests_cant": "universal", "anchors": ["optbinning/binning/continuous_cp.py"]}
{"id": "C29", "title": "Multiclass trends are honoured per class", "statement": "For a multiclass target, each class's event rates follow the trend requested for that class.", "quantifier": "all counts and feasible solutions", "why_tests_cant": "universal", "anchors": ["optbinning/binning/multiclass_cp.py"]}
{"id": "C30", "title": "Automatic trend classification is total", "statement": "auto/auto_asc_desc classification always yields ascending, descending, peak or valley (auto_asc_desc: ascending or descending).", "quantifier": "all event-rate vectors", "why_tests_cant": "universal", "anchors": ["optbinning/binning/auto_monotonic.py"]}
{"id": "C31", "title": "MDLP prebinning yields valid splits", "statement": "MDLP returns strictly increasing split points inside the data range and (up to its stopping rule) no leaf smaller than min_samples_leaf; a second fit does not depend on the first.", "quantifier": "all data sets", "why_tests_cant": "universal, history", "anchors": ["optbinning/binning/mdlp.py"]}
{"id": "C32", "title": "Quantile sketch rank guarantee", "statement": "After any sequence of add() operations on a GK sketch, quantile(q) returns a value whose rank is within eps*(n-1) (rounded down) plus one of the requested rank; min and max are exact.", "quantifier": "all insertion sequences, eps and q", "why_tests_cant": "history property over all insertion orders", "anchors": ["optbinning/binning/distributed/gk.py"]}
{"id": "C33", "title": "Quantile sketch conserves counts", "statement": "n equals the number of added values and equals the sum of the entry weights, also after compress and merge.", "quantifier": "all histories of add/compress/merge", "why_tests_cant": "history", "anchors": ["optbinning/binning/distributed/gk.py"]}
{"id": "C34", "title": "Merging binning sketches adds counts", "statement": "merge() of two binning sketches yields a sketch whose event / non-event / missing / special counts are the sums of both, independently of order, and later updates of one sketch do not affect the other.", "quantifier": "all pairs of sketches", "why_tests_cant": "history, aliasing", "anchors": ["optbinning/binning/distributed/bsketch.py"]}
{"id": "C35", "title": "Scorecard PDO scaling", "statement": "With pdo_odds scaling, a score equals scorecard_points at odds when model odds match, and doubling the odds changes the total score by exactly pdo points.", "quantifier": "all coefficients, WoE and scaling parameters", "why_tests_cant": "universal over reals", "anchors": ["optbinning/scorecard/scorecard.py"]}
{"id": "C36", "title": "Scorecard min-max scaling", "statement": "With min_max scaling, the smallest and largest attainable total scores are exactly min and max (attained), for both orderings.", "quantifier": "all point tables", "why_tests_cant": "universal over reals", "anchors": ["optbinning/scorecard/scorecard.py"]}
{"id": "C37", "title": "Intercept-based scaling preserves scores", "statement": "With intercept_based=True the minimum points of each variable are 0 and total scores are unchanged.", "quantifier": "all point tables", "why_tests_cant": "universal", "anchors": ["optbinning/scorecard/scorecard.py"]}
{"id": "C38", "title": "Rounded scorecards stay within bounds", "statement": "Any feasible solution of the rounding optimisation yields integer points whose minimum and maximum totals are within the requested range; simple rounding changes a total by at most half a point per variable.", "quantifier": "all point tables", "why_tests_cant": "universal", "anchors": ["optbinning/scorecard/rounding.py", "optbinning/scorecard/scorecard.py"]}
{"id": "C39", "title": "Score equals the sum of the points of the bins", "statement": "score(X) is, for each sample, the intercept plus the points displayed for the bin of each of its variables.", "quantifier": "all samples", "why_tests_cant": "universal", "anchors": ["optbinning/scorecard/scorecard.py"]}
{"id": "C40", "title": "Parallel fit equals sequential fit", "statement": "BinningProcess.fit with any n_jobs fits exactly the same variables with the same results as a sequential fit.", "quantifier": "all n_jobs and variable lists", "why_tests_cant": "schedule property", "anchors": ["optbinning/binning/binning_process.py"]}
{"id": "C41", "title": "Variable selection honours the criteria", "statement": "get_support() returns variables satisfying min/max criteria, at most `top` of them when a ranking is requested and the best-ranked ones, and always includes the fixed variables.", "quantifier": "all metric tables and criteria", "why_tests_cant": "universal", "anchors": ["optbinning/binning/binning_process.py:_support_selection_criteria"]}
{"id": "C42", "title": "Per-variable transform parameters are local", "statement": "binning_transform_params given for a variable affects only this variable, and transforming a dataset chunk by chunk equals transforming it at once.", "quantifier": "all parameter dicts and datasets", "why_tests_cant": "history", "anchors": ["optbinning/binning/binning_process.py:_transform", "optbinning/binning/binning_process.py:_transform_disk"]}
{"id": "C43", "title": "PSI is a divergence", "statement": "Population stability indices are >= 0, symmetric in expected/actual and 0 iff both distributions coincide; all actual and expected records are counted.", "quantifier": "all count vectors", "why_tests_cant": "universal", "anchors": ["optbinning/scorecard/monitoring.py"]}
{"id": "C44", "title": "Classification metrics are in range and exact", "statement": "KS statistic is 1 for perfect separation; tpr+fnr=1 and fpr+tnr=1; Gini from ROC in range.", "quantifier": "all label/score vectors", "why_tests_cant": "universal", "anchors": ["optbinning/metrics/classification.py"]}
{"id": "C45", "title": "Piecewise transform respects bounds", "statement": "Piecewise binning transform output is within the given lb/ub.", "quantifier": "all inputs", "why_tests_cant": "universal", "anchors": ["optbinning/binning/piecewise/transformations.py"]}
{"id": "C46", "title": "2D bins partition the plane, match the table and respect trends and limits", "statement": "After OptimalBinning2D.fit, every pair of known values without a special code lies in exactly one displayed bin and transform(metric='indices') returns it; each table row counts exactly the training samples transformed to it (special and missing rows apart); bins sharing a split along an axis follow that axis's monotonic trend with the minimum rate difference; numbers of bins and of records/events/non-events per bin stay within the limits; and the solution is optimal among all valid tilings of the prebinning grid.", "quantifier": "all samples, special codes, dtypes, prebinning splits, limits, trends and every solution a sound solver may return", "why_tests_cant": "the number of rectangle tilings and of data sets is unbounded; a test sees a few grids", "anchors": ["optbinning/binning/multidimensional/binning_2d.py:OptimalBinning2D", "optbinning/binning/multidimensional/cp_2d.py:Binning2DCP", "optbinning/binning/multidimensional/model_data_2d.py:model_data", "optbinning/binning/multidimensional/transformations_2d.py:_apply_transform"]}
{"id": "C47", "title": "Outlier detection flags and removes exactly the outliers", "statement": "The range detector flags exactly the values more than k interval lengths outside the equal-tailed (or highest density) credible interval, the modified z-score detector exactly those whose score exceeds the threshold, the y-quantile detector exactly the samples whose target is an outlier within their quantile bin of x; the flags do not depend on the unit or the order of the samples; with sensible parameters at most half of the samples are flagged. In fit, exactly the flagged clean samples are removed, with their targets and weights; missing and special samples are neither removed nor taken into account.", "quantifier": "all samples, special codes, weights, detector parameters, unit changes and permutations", "why_tests_cant": "universal", "anchors": ["optbinning/binning/outlier.py: RangeDetector, ModifiedZScoreDetector, YQuantileDetector", "optbinning/binning/preprocessing.py: split_data"]}
{"id": "C48", "title": "fix_lb and fix_ub bound the clean data", "statement": "When fix_lb and/or fix_ub are given all clean records kept by preprocessing lie within the bounds.", "quantifier": "all data and bounds", "why_tests_cant": "universal", "anchors": ["optbinning/binning/preprocessing.py:split_data"]}
{"id": "C49", "title": "Methods require fit", "statement": "transform, splits, status, binning_table, information and to_json raise NotFittedError exactly until a fit succeeded; plot, analysis and the table statistics exactly until build() succeeded on the current table, quality_score until analysis() did; a call that raises never makes the object fitted and, fit aside, changes nothing.", "quantifier": "all call histories", "why_tests_cant": "history", "anchors": ["optbinning/binning/base.py", "optbinning/binning/binning_statistics.py"]}
{"id": "C50", "title": "JSON round trip", "statement": "to_json of a fitted object succeeds, and read_json of that file into any object yields the same binning table and the same transform results; a loaded object can be saved again; a failing to_json does not destroy an existing file.", "quantifier": "all fitted objects", "why_tests_cant": "universal", "anchors": ["optbinning/binning/binning.py:to_json", "optbinning/binning/binning.py:read_json"]}
{"id": "C51", "title": "gamma penalises dominating bins", "statement": "With gamma > 0 the optimal binning maximises divergence minus a penalty proportional to the difference between the largest and the smallest bin size (binary and continuous targets).", "quantifier": "all prebin tables, request configurations, gamma values and solver answers", "why_tests_cant": "optimality over all feasible binnings", "anchors": ["optbinning/binning/cp.py:BinningCP.build_model", "optbinning/binning/continuous_cp.py:ContinuousBinningCP.build_model"]}
{"id": "C52", "title": "Multiclass table counts every record once", "statement": "For a multiclass target, each cell of the fitted binning table is the number of training records of that class in that bin / special / missing row, and every training record with a class is counted in some cell.", "quantifier": "all records, class labels, special codes, splits and solver answers", "why_tests_cant": "universal over data and refinement histories", "anchors": ["optbinning/binning/multiclass_binning.py:_prebinning_refinement", "optbinning/binning/binning_statistics.py:multiclass_bin_info"]}
{"id": "C53", "title": "Multiclass transform is the mean one-vs-rest WoE", "statement": "For a multiclass target, transform with metric mean_woe (weighted_mean_woe) maps a value to the mean (mean weighted by class totals) over the classes of the one-vs-rest weight of evidence of the value's table row.", "quantifier": "all fitted objects and values", "why_tests_cant": "universal; real-valued identities", "anchors": ["optbinning/binning/transformations.py:transform_multiclass_target"]}
{"id": "C54", "title": "Binning sketch table totals", "statement": "After OptimalBinningSketch.solve(), the rows of the binning table (bins, special, missing) sum to the numbers of events and non-events that were added.", "quantifier": "all sequences of added / merged data, all solver answers, eps, max_n_prebins and divergences", "why_tests_cant": "depends on quantile sketch internals and on how many splits survive refinement", "anchors": ["optbinning/binning/distributed/binning_sketch.py: solve, _prebinning_data, _compute_prebins", "optbinning/binning/distributed/bsketch.py: bins"]}
{"id": "C55", "title": "Binning sketch counts are accurate and agree with transform", "statement": "After OptimalBinningSketch.solve(), the number of records counted up to each split differs from the true number by at most the tolerance given by eps, and a record is counted in the bin that transform assigns to it.", "quantifier": "all sequences of added data, all splits", "why_tests_cant": "approximation bound over all streams; ties at split points", "anchors": ["optbinning/binning/distributed/binning_sketch.py: solve, transform", "optbinning/binning/distributed/bsketch.py: bins", "optbinning/binning/distributed/gk.py"]}
{"id": "C56", "title": "Categorical binning sketch: bins and counts agree", "statement": "After OptimalBinningSketch.solve() with dtype categorical, the bins partition the categories seen, rare categories (share below cat_cutoff) form the last bin, each row of the table is the sum over the categories of its bin, and refinement only merges categories lacking events or non-events with neighbours.", "quantifier": "all dictionaries of categories, cutoffs and solver answers", "why_tests_cant": "recursive refinement over all shapes of data", "anchors": ["optbinning/binning/distributed/binning_sketch.py: _compute_cat_prebins, solve, splits", "optbinning/binning/distributed/bsketch.py: BCatSketch.bins"]}
{"id": "C57", "title": "Selection follows an updated variable", "statement": "After update_binned_variable(name, optb), get_support() and transform select the variables that the selection criteria choose for the updated objects.", "quantifier": "all processes, updates and criteria", "why_tests_cant": "history property over all tables", "anchors": ["optbinning/binning/binning_process.py:update_binned_variable", "optbinning/binning/binning_process.py:summary"]}
{"id": "C58", "title": "Piecewise empirical special and missing values", "statement": "transform(metric_special='empirical', metric_missing='empirical') of a piecewise binning returns, for special codes and missing values, the event rate (WoE, mean) observed for them in the training data, the value also shown in the binning table.", "quantifier": "all training data, codes, inputs and bounds", "why_tests_cant": "universal over data sets and code dictionaries", "anchors": ["optbinning/binning/piecewise/binning.py:transform", "optbinning/binning/piecewise/transformations.py:transform_binary_target", "optbinning/binning/piecewise/binning_statistics.py:PWBinningTable.build"]}
{"id": "C59", "title": "A failed refit is atomic", "statement": "If fit() raises on an object that was fitted before, the results of the previous fit stay in force: splits, status, binning_table (with its statistics) and transform answer as before the failed call.", "quantifier": "all object states, parameters and new data", "why_tests_cant": "every crash point of fit", "anchors": ["optbinning/binning/binning.py:OptimalBinning._fit", "optbinning/binning/binning.py:OptimalBinning._fit_optimizer"]}
{"id": "C60", "title": "Two-dimensional binning of a continuous target", "statement": "After ContinuousOptimalBinning2D.fit (strategy grid), the bins of the table partition the plane and transform(metric='indices') returns the unique bin of a pair; Count, Sum and Std of a row are the number, target sum and standard deviation of exactly the training samples that transform sends to that row, and transform(metric='mean') returns their mean (special and missing pairs: mean of the special / missing samples or the number given); neighbouring bins respect monotonic_trend_x/y with min_mean_diff_x/y; bin sizes and number of bins respect the limits; the selected bins maximise the objective over all valid rectangular tilings; the count-weighted deviations of the row means cancel.", "quantifier": "all training sets, special codes, split points, trends, limits, solver answers and new pairs", "why_tests_cant": "Which tilings the solver picks depends on the data; tests fix a handful of grids, the statement ranges over all grids, all tilings and all new pairs.", "anchors": ["optbinning/binning/multidimensional/continuous_binning_2d.py: ContinuousOptimalBinning2D._fit, _prebinning_matrices", "optbinning/binning/multidimensional/model_data_2d.py: continuous_model_data", "optbinning/binning/multidimensional/transformations_2d.py: transform_continuous_target", "optbinning/binning/multidimensional/binning_statistics_2d.py: ContinuousBinningTable2D.build"]}
{"id": "C61", "title": "Two-dimensional binning with strategy cart", "statement": "With strategy='cart', fit builds its bins only from rectangles made of more than one whole leaf of the decision tree that satisfy the size limits; after a successful fit the bins partition the plane, transform(metric='indices') returns the unique bin of a pair, the table rows count exactly the training samples transform sends to them, the numbers of bins and bin sizes respect the limits, neighbouring bins respect monotonic_trend_x and monotonic_trend_y, and the selected bins maximise the objective over the valid tilings by such rectangles. Likewise for a continuous target with records, sums and means.", "quantifier": "all training sets, special codes, split points, decision trees, trends, limits, solver answers and new pairs", "why_tests_cant": "The candidates depend on the shape of the tree, which depends on the data; the statement ranges over all trees, all tilings and all new pairs.", "anchors": ["optbinning/binning/multidimensional/model_data_cart_2d.py: get_rectangles, get_auxiliary_matrices, model_data_cart, continuous_model_data_cart", "optbinning/binning/multidimensional/cp_2d.py: Binning2DCP", "optbinning/binning/multidimensional/binning_2d.py: OptimalBinning2D._fit_optimizer", "optbinning/binning/multidimensional/continuous_binning_2d.py"]}
{"id": "C62", "title": "Sample and class weights", "statement": "With fit(x, y, sample_weight) and class_weight, every count in the fitted binning table is the total weight (sample_weight times the weight of the record's class) of the training records that transform sends to that row; class_weight='balanced' gives both classes the same total weight; multiplying all weights by a constant does not change the bins; and fit does not modify the caller's arrays.", "quantifier": "all training sets, weights, class weights, special codes and solver answers", "why_tests_cant": "The library's tests compare unweighted fits; the relation between weights and counts must hold for all weight vectors, including fractional ones, and the aliasing of the caller's array depends on its type.", "anchors": ["optbinning/binning/preprocessing.py: split_data (180-187)", "optbinning/binning/binning.py: OptimalBinning._fit, _prebinning_refinement"]}
{"id": "C63", "title": "Counterfactual explanations", "statement": "Every counterfactual returned by Counterfactual.generate and shown by display changes at most max_changes features, all of them actionable, each to another bin of its binning table; the score and probability shown are those of the changed sample and meet the requested outcome, and the fitted scorecard predicts that outcome for a sample with the shown bins; hard diversity constraints hold between any two counterfactuals; a counterfactual is found exactly when the request can be met; and it is optimal for the requested objectives (weighted sum, or by priority within priority_tol).", "quantifier": "all scorecards (numerical and categorical variables, special codes), queries, objectives, constraints, numbers of counterfactuals and optimal solver answers", "why_tests_cant": "The tests run a few queries on one dataset; soundness and optimality quantify over every query, table and set of constraints, and the failures need special codes in a dict, missing values or a particular choice of objectives.", "anchors": ["optbinning/scorecard/counterfactual/counterfactual.py: Counterfactual.generate, display", "optbinning/scorecard/counterfactual/mip.py: CFMIP", "optbinning/scorecard/counterfactual/multi_mip.py: MCFMIP", "optbinning/scorecard/counterfactual/model_data.py", "optbinning/scorecard/counterfactual/problem_data.py"]}
{"id": "C64", "title": "solver='mip'", "statement": "OptimalBinning(solver='mip').fit: when the solver reports a solution, the binning table respects every request on exact event rates: number of bins, bin sizes and counts, monotonic_trend, max_pvalue, min_event_rate_diff and fixed splits; every grouping of the prebins that meets the request is allowed; and the total divergence of the table is the largest among them.", "quantifier": "all data, prebins, trends, limits, p-value tests, fixed splits and solver answers satisfying the posted constraints (exactly, and within the solver's tolerance)", "why_tests_cant": "The tests compare a few optimal tables with the CP solver; the meaning of the big-M constraints must hold for every table, and the failures depend on the tolerance of the solver or on particular event rates.", "anchors": ["optbinning/binning/mip.py: BinningMIP.build_model, solve", "optbinning/binning/model_data.py: model_data, find_pvalue_violation_indices, find_min_diff_violation_indices"]}
{"id": "C65", "title": "Scenario-based binning honours every scenario", "statement": "SBOptimalBinning.fit(X, Y, weights): the table of each scenario counts exactly that scenario's records and the main table is their sum; when the solver reports a solution, number of bins, bin sizes (as shares of each scenario), monotonic_trend, max_pvalue, min_event_rate_diff and fixed splits hold in every scenario at once; every grouping meeting the requests in all scenarios is allowed; and the answer maximises the divergence of the scenarios weighted by the given weights. fit works on any data (including data without a usable split) and can be repeated.", "quantifier": "all numbers of scenarios, all data with special and missing values, all weights, user splits and flags, limits, trends, p-value tests, and solver answers satisfying the posed constraints", "why_tests_cant": "The tests fit three fixed scenarios with default options; that no scenario is violated, that the weights act proportionally and that the fixed splits survive the refinement depends on the scenario data and on the order of the user splits.", "anchors": ["optbinning/binning/uncertainty/binning_scenarios.py: SBOptimalBinning._fit, _prebinning_refinement, _compute_prebins, _fit_optimizer", "optbinning/binning/cp.py: BinningCP.build_model_scenarios", "optbinning/binning/preprocessing.py: split_data_scenarios", "optbinning/binning/model_data.py: multi_data_scenarios"]}
{"id": "C66", "title": "Each variable of a BinningProcessSketch behaves like its own sketch", "statement": "After any history of add, merge and solve on BinningProcessSketch objects, each variable is in the state of an OptimalBinningSketch with the process' options (binning_fit_params taking precedence) that received the variable's columns in order, so other variables, column order and batches without the variable do not matter; a history succeeds exactly when it does for each variable alone; after solve every selected variable has the table of its own data and transform applies it with the call's (or the variable's own) arguments; information() counts all records; selection_criteria, max_bin_size and the documented metrics work; merging needs equal options only; a call that raises leaves the object unchanged.", "quantifier": "all histories of operations on any number of merged processes, all frames, options, and data sketches and solvers of the variables (arbitrary functions)", "why_tests_cant": "The tests add two fixed frames and merge once; the claim is about every interleaving of add, merge and solve, every set of columns and every point where a call raises.", "anchors": ["optbinning/binning/distributed/binning_process_sketch.py: BinningProcessSketch.add, merge, mergeable, solve, transform, information", "optbinning/binning/distributed/binning_sketch.py: OptimalBinningSketch.add, merge, solve", "optbinning/binning/binning_process.py: BaseBinningProcess._binning_selection_criteria, _support_selection_criteria"]}
{"id": "C67", "title": "Multiclass binning with the mixed-integer solver honours every class", "statement": "MulticlassOptimalBinning(solver=\"mip\").fit: when the solver returns a 0/1 solution of its model, the number of bins is within min_n_bins/max_n_bins, every class of the fitted table follows the monotonic trend requested for it exactly, max_pvalue and min_event_rate_diff hold between its bins, and fixed splits that survive the pre-binning are kept; every grouping meeting the requests of all classes is allowed; and the answer has the largest possible sum of the classes' information values.", "quantifier": "all data with any number of classes, special and missing values, all splits, flags, limits, trends per class, p-value tests and rate differences, and all solver answers satisfying the posed constraints", "why_tests_cant": "The tests fit one fixed data set with solver mip; whether the constraints of every class together neither admit a violating binning nor reject a valid one depends on the data and on the switching constants of the peak and valley constraints.", "anchors": ["optbinning/binning/multiclass_mip.py: MulticlassBinningMIP.build_model, decision_variables, add_constraint_monotonic_peak, add_constraint_monotonic_valley", "optbinning/binning/mip.py: BinningMIP.solve, add_constraint_*", "optbinning/binning/model_data.py: multiclass_model_data", "optbinning/binning/multiclass_binning.py: MulticlassOptimalBinning._fit_optimizer"]}
{"id": "C68", "title": "Two-dimensional binning: gamma and solver='mip'", "statement": "OptimalBinning2D(strategy='grid'): gamma never rules out a binning; with gamma the answer is best for divergence minus a multiple of the difference between the largest and the smallest bin, and a larger gamma never gives a larger difference; with solver='mip' the bins partition the plane and respect min_n_bins/max_n_bins and the trends like with the default solver, and the answer is exactly optimal.", "quantifier": "all data, grids, size limits, trends, gamma >= 0, divergences, and all answers of a solver that satisfies (for optimality: is best for) the posed model", "why_tests_cant": "The tests run gamma once and solver mip on one data set; that gamma acts as a penalty on the spread of the bin sizes for every data set and the equivalence of the two models cannot be tested.", "anchors": ["optbinning/binning/multidimensional/mip_2d.py: Binning2DMIP.build_model, add_constraint_monotonic", "optbinning/binning/multidimensional/cp_2d.py: Binning2DCP.build_model", "optbinning/binning/multidimensional/binning_2d.py: OptimalBinning2D._fit"]}
{"id": "C69", "title": "Continuous-target binning table: columns, Totals, IV, WoE, quality", "statement": "ContinuousOptimalBinning.fit(...).binning_table.build(): every column of every row is the documented function of the training records of that row (Count and Sum weighted, Mean = Sum/Count, Zeros count, WoE = row mean minus overall mean, IV = |WoE| times the share of records); the Totals row describes the whole training set; IV is between 0 and the mean absolute deviation of the target, is 0 exactly when no row differs from the overall mean, never grows when rows are merged, and IV and WoE do not change when a constant is added to the target; the quality score is in [0, 1].", "quantifier": "all weighted data sets, special codes (list or dict), splits returned by any solver, and (for the table level) all tables with counts >= 0", "why_tests_cant": "Tests compare a handful of printed tables; the identities between rows and records, the bounds and the invariances range over every data set and every binning.", "anchors": ["optbinning/binning/binning_statistics.py: ContinuousBinningTable.build, ContinuousBinningTable.analysis", "optbinning/binning/metrics.py: continuous_binning_quality_score, hhi", "optbinning/binning/continuous_binning.py: ContinuousOptimalBinning._fit"]}
{"id": "C70", "title": "Multiclass table statistics and Cram\u00e9r's V", "statement": "MulticlassOptimalBinning(...).binning_table.build()/analysis(): the shares sum to 1 and the event rates of the classes of a non-empty row sum to 1; js is the generalised Jensen-Shannon divergence of the class distributions, is between 0 and log(n_classes), is 0 exactly when all classes have the same distribution over the rows and never grows when rows are merged; HHI and quality score are in range; the chi-square statistic is Pearson's, Cram\u00e9r's V (multiclass and binary) is in [0, 1], is 0 exactly when bins and target are independent, and with a binary target never grows when bins are merged; after a fit of a multiclass target, or of a binary target with divergence iv or js, every bin contains every class (both classes), so that analysis() never fails in its chi-square tests.", "quantifier": "all tables of counts >= 0 without empty class; all fits: data, special codes, prebinning splits, user splits, and any solver answer", "why_tests_cant": "The tests print analysis() of one data set; positivity, bounds, merging monotonicity and the absence of division by zero concern every table and every fit.", "anchors": ["optbinning/binning/binning_statistics.py: MulticlassBinningTable.build, MulticlassBinningTable.analysis, BinningTable.analysis", "optbinning/binning/metrics.py: jensen_shannon_multivariate, chi2_cramer_v, chi2_cramer_v_multi, multiclass_binning_quality_score, hhi", "optbinning/binning/multiclass_binning.py: MulticlassOptimalBinning._compute_prebins"]}
{"id": "C71", "title": "BinningProcess as an object: options, call histories, three ways to fit, updates", "statement": "After a successful BinningProcess.fit, whatever calls preceded it: every variable has a binning object of the class for the target type, with the process's parameters (binning_fit_params[name] on top), equal to its own fit on its column; get_support (mask, indices, names) agrees with itself, with selection_criteria and with the columns of transform; a fit gives the same answers as on a new object; fit_disk equals fit on the frame of the file's columns and fit_from_dict with the objects of a fitted process reproduces it; methods raise NotFittedError exactly until some fit succeeded; update_binned_variable replaces exactly the named object or changes nothing; out-of-range parameters make every fit raise without effect.", "quantifier": "all parameters, data, column fits (arbitrary functions that may fail), and all histories of calls of fit, fit_disk, fit_from_dict, update_binned_variable, set_params, summary, information, get_binned_variable, get_support, transform", "why_tests_cant": "Tests call the methods in one order on one data set; stale state after failed or repeated fits, pending updates and option hand-over depend on every history and every combination of options.", "anchors": ["optbinning/binning/binning_process.py: BinningProcess.fit, fit_disk, fit_from_dict, update_binned_variable, summary, get_support, transform, get_binned_variable, information, _fit_variable, _binning_selection_criteria"]}
{"id": "C72", "title": "Pre-binning by decision tree, min_prebin_size and split_digits", "statement": "With prebinning_method='cart' the candidate splits are exactly the thresholds the tree found, and every bin of the final binning holds at least min_prebin_size of the clean records. With split_digits every final split is the nearest decimal (ties to even) of a candidate split, the splits remain in order without duplicates, the table rows count exactly the records that the rounded splits send to them, and splits fixed by the user and the groups of a categorical variable are kept.", "quantifier": "all decision trees on one feature, all data, weights, special codes, solver answers, numbers of digits and user splits, for binary, continuous and multiclass targets", "why_tests_cant": "Which thresholds a tree has and which records rounding moves across a split depends on the data; tests use a few data sets without a threshold of -2 or values close to a rounding boundary.", "anchors": ["optbinning/binning/prebinning.py: PreBinning.fit", "optbinning/binning/binning.py: OptimalBinning._prebinning_refinement", "optbinning/binning/continuous_binning.py: ContinuousOptimalBinning._prebinning_refinement", "optbinning/binning/multiclass_binning.py: MulticlassOptimalBinning._prebinning_refinement"]}
{"id": "C73", "title": "Bin labels identify bins", "statement": "The Bin column and transform(metric='bins') name every bin by its two ends, printed with show_digits decimals: the printed number is the nearest decimal; there is one label per bin; transform(metric='bins') returns the label of the row the record belongs to, whatever metric_special and metric_missing; different bins have different labels, the displayed interval contains the records of the bin, and special and missing records are never labelled alike.", "quantifier": "all split lists, show_digits, special codes (list or dict with any keys), values", "why_tests_cant": "Collisions depend on the distances between splits relative to the shown digits and on ties of rounding; tests look at a few data sets with large scales.", "anchors": ["optbinning/binning/binning_statistics.py: bin_str_format, BinningTable.build", "optbinning/binning/transformations.py: _transform_metric_indices_bins, transform_binary_target", "optbinning/binning/piecewise/binning_statistics.py", "optbinning/scorecard/monitoring.py"]}
{"id": "C74", "title": "Scorecard as an object: call histories, columns, failed fits", "statement": "For every sequence of fit, predict, predict_proba, decision_function, score, table and set_params calls on a Scorecard: the reads raise NotFittedError until a fit has succeeded and answer afterwards; only fit changes what they answer; a successful fit makes the object answer as a fresh object with the same parameters would; score is intercept_ plus the points the table shows for the record's rows, record by record; predict applies the estimator to the values it was trained with; only the columns named in the binning process matter, in any order, and a missing one is an error; a fit that fails leaves the object as it was.", "quantifier": "all call histories, frames, targets, weights, parameters, metric arguments, and all behaviours of the binning process, estimator and rounding solver including failures at any step", "why_tests_cant": "Stale attributes only show after particular histories (refit, failed refit, changed parameters); tests fit a fresh object once.", "anchors": ["optbinning/scorecard/scorecard.py: Scorecard.fit, _fit, predict, predict_proba, decision_function, score, table, _transform, _check_parameters, _check_scorecard_scaling"]}
{"id": "C75", "title": "2D tables: which bins analysis() compares", "statement": "For every 2D binning table (binary or continuous target, strategy grid or cart): analysis() compares exactly the pairs of neighbouring bins (one bin starts where the other ends along one axis and they share values of the other axis), each pair once, left or lower bin first, in lexicographic order, never a bin with itself, and the compared pairs lead from every bin to every other one; for a binary target every test table has the counts of its two bins, without an empty row or column, so the statistic is defined and is 0 exactly when the two event rates agree; Cramer's V is in [0, 1] and 0 exactly when all event rates agree; the quality score is in [0, 1].", "quantifier": "all samples, prebinnings, limits, trends, solutions of the solver and trees; all sizes of the grid", "why_tests_cant": "The pairs are read off a label matrix by collapsing repeated labels along rows and columns; whether this yields exactly the neighbours depends on every possible rectangular partition.", "anchors": ["optbinning/binning/multidimensional/binning_statistics_2d.py: get_paths, get_pairs, BinningTable2D.analysis, ContinuousBinningTable2D.analysis"]}
{"id": "C76", "title": "ScorecardMonitoring: what the object answers over its life", "statement": "For every history of fits, parameter changes and refits of the scorecard: every read of a ScorecardMonitoring object raises NotFittedError until a fit has succeeded and answers afterwards; a fit succeeds or fails whatever the object did before, and after a success the object equals a new one fitted on the same data; a failed fit leaves the answers unchanged; reads do not change when parameters or the scorecard change. After a fit on a binary target each row of psi_table and tests_table has the true counts of its score interval, the chi-square statistic is defined and is 0 exactly when the two event rates agree, the PSI total is finite, >= 0 and 0 exactly for equal distributions; the report shows the true targets and the metrics of the predictions; the variable tables have one block per scorecard variable; a fit works for every pair of data sets.", "quantifier": "all histories of operations; all scorecards, data sets, pre-binnings and options", "why_tests_cant": "The claim ranges over histories (including calls that fail half-way) and over all data sets; the failing combinations depend on counts in single bins.", "anchors": ["optbinning/scorecard/monitoring.py: ScorecardMonitoring.fit, psi_table, tests_table, psi_variable_table, system_stability_report, psi_splits, print_psi_report"]}
{"id": "C77", "title": "solver='ls': the optimisation model means the user's request", "statement": "For every fit with solver='ls' that LocalSolver ends with status OPTIMAL or FEASIBLE: the chosen bins are consecutive groups of prebins that cover each prebin once; the table meets min/max number of bins, size, event and non-event limits and the fixed splits; the event rates follow the requested trend (for ascending, descending and the heuristics with min_event_rate_diff between every pair of bins on the same side), up to the resolution of the scaled integers; a binning that meets the request can always be chosen; the objective is the divergence of the table, so an optimal answer is the best binning meeting the request; with any other status the table has a single bin with all records.", "quantifier": "all samples, weights, prebins and requests; all assignments the solver may report", "why_tests_cant": "LocalSolver is a commercial dependency absent from the test environment, and the claim ranges over every sample, request and solver answer.", "anchors": ["optbinning/binning/ls.py:BinningLS.build_model", "optbinning/binning/ls.py:BinningLS.solve", "optbinning/binning/binning.py:OptimalBinning._fit_optimizer"]}
{"id": "C78", "title": "Counterfactual: call order, requests and what is displayed", "statement": "For every history of fit, generate and changes of the scorecard: generate raises NotFittedError until a fit has succeeded; display and status raise until a generate has succeeded since the last successful fit; a call that raises leaves what is displayed unchanged; after a successful fit nothing depends on earlier calls. A request the documentation does not allow raises ValueError without effect. An acceptable request about one data point succeeds: without a solution, status tells so and display raises; with one, display shows n_cf rows, each the query with features moved to other bins of their tables (dashes for the others with show_only_changes) and the outcome the scorecard computes for these moves, meeting actionable features, max_changes, the requested outcome and diversity.", "quantifier": "all histories, scorecards, queries, requests and solver answers satisfying the posted constraints", "why_tests_cant": "ranges over call histories with failing calls and refitted scorecards, all combinations of request options, and all solutions a solver may return.", "anchors": ["optbinning/scorecard/counterfactual/counterfactual.py:Counterfactual", "optbinning/scorecard/counterfactual/counterfactual.py:_check_parameters", "optbinning/scorecard/counterfactual/base.py:BaseCounterfactual", "optbinning/scorecard/counterfactual/mip.py:CFMIP.solve"]}
{"id": "C79", "title": "Options are checked: accepted exactly when inside the documented range", "statement": "For every value of every option, of any type: the constructor options of OptimalBinning, ContinuousOptimalBinning, MulticlassOptimalBinning, SBOptimalBinning, OptimalBinningSketch, OptimalBinning2D, ContinuousOptimalBinning2D, OptimalPWBinning, ContinuousOptimalPWBinning, BinningProcess, BinningProcessSketch, Scorecard, ScorecardMonitoring and MDLP, the selection criteria, the scaling parameters and the arguments metric_special, metric_missing, cat_unknown, show_digits and add_totals pass the check exactly when each is of the documented type and in the documented range and pairs of limits are consistent; otherwise ValueError or TypeError is raised before any data are read. Options accepted by a process are accepted by every binning it builds.", "quantifier": "all Python values (None, booleans, integers, numpy integers and booleans, floats with nan and infinities, complex numbers, strings, lists, tuples, arrays, dicts, objects) of all options together", "why_tests_cant": "the space of values and of combinations of options is infinite; tests try a few invalid values per option, one at a time.", "anchors": ["optbinning/binning/binning.py:_check_parameters", "optbinning/binning/continuous_binning.py:_check_parameters", "optbinning/binning/multiclass_binning.py:_check_parameters", "optbinning/binning/distributed/binning_sketch.py:_check_parameters", "optbinning/binning/distributed/bsketch.py:_check_parameters", "optbinning/binning/uncertainty/binning_scenarios.py:_check_parameters", "optbinning/binning/multidimensional/binning_2d.py:_check_parameters", "optbinning/binning/multidimensional/continuous_binning_2d.py:_check_parameters", "optbinning/binning/piecewise/base.py:_check_parameters", "optbinning/binning/binning_process.py:_check_parameters", "optbinning/binning/binning_process.py:_check_selection_criteria", "optbinning/scorecard/scorecard.py:_check_scorecard_scaling", "optbinning/binning/transformations.py:_check_metric_special_missing"]}
{"id": "C80", "title": "max_pvalue bounds the p-values listed by analysis()", "statement": "For a binning fitted with max_pvalue (policy 'consecutive' or 'all'), binning_table.analysis() lists one chi-square p-value per pair of consecutive bins, computed from the two displayed rows, and none exceeds max_pvalue; max_pvalue forbids no binning whose listed p-values are all within the limit. The test used in the optimisation (two proportions) and the one displayed (chi-square of the two-by-two table) always agree. For a continuous target, the Welch p-value of two consecutive displayed rows, when it is a number, does not exceed max_pvalue. P[A > B] and P[B > A] are between 0 and 1, sum to 1 and do not depend on the random shuffling.", "quantifier": "all data, splits, max_pvalue in [0,1], both policies, all feasible answers of the solver, every strictly increasing symmetric distribution function in the place of the normal law", "why_tests_cant": "the equality of the two tests is an algebraic identity over all counts; tests compare a few tables numerically and never the constraint with the display.", "anchors": ["optbinning/binning/model_data.py:test_proportions", "optbinning/binning/model_data.py:find_pvalue_violation_indices", "optbinning/binning/model_data.py:find_pvalue_violation_indices_continuous", "optbinning/binning/metrics.py:frequentist_pvalue", "optbinning/binning/metrics.py:bayesian_probability", "optbinning/binning/binning_statistics.py:BinningTable.analysis", "optbinning/binning/binning_statistics.py:ContinuousBinningTable.analysis"]}
{"id": "C81", "title": "OptimalBinningSketch over any history of add, merge and solve", "statement": "At any point of any sequence of add, merge and solve calls, splits, transform and binning_table of an OptimalBinningSketch agree with each other and are those of the last solve() that did not raise, computed from exactly the records known at that time: calls of add and merge, and a solve that raises, change nothing before the next successful solve, and before the first one the queries raise. The rows count every record of that time once, cumulated counts are within the rank error of the sketch, and the streaming statistics have one entry per successful solve. As long as the sketches are exact (eps * (n - 1) < 1) the result of solve depends on the multiset of records only, not on their order, batching, merging or on earlier solves.", "quantifier": "all finite trees of add (accepted or refused), merge and solve calls, all records, all behaviours of the optimizer including raising", "why_tests_cant": "the object mutates its sketches in every add, merge and even solve, and keeps two dozen attributes between calls; only an invariant over all interleavings excludes stale or lost data. Tests run one add/solve sequence.", "anchors": ["optbinning/binning/distributed/binning_sketch.py:OptimalBinningSketch.add", "optbinning/binning/distributed/binning_sketch.py:OptimalBinningSketch.merge", "optbinning/binning/distributed/binning_sketch.py:OptimalBinningSketch.solve", "optbinning/binning/distributed/binning_sketch.py:OptimalBinningSketch.information", "optbinning/binning/distributed/bsketch.py:BSketch", "optbinning/binning/distributed/bsketch.py:BCatSketch"]}
{"id": "C82", "title": "ContinuousOptimalBinning over any history of calls", "statement": "A ContinuousOptimalBinning object may be fitted again, saved, loaded and queried in any order. Until a fit returned normally or read_json was called, every query raises NotFittedError. A fit raises or returns as it would on a new object with the same parameters, and afterwards splits, status, transform and the table are those of the new object: no statistic of earlier data survives. After any history, row k reports exactly the records of bin k of the data just fitted and transform(metric='mean') gives their weighted mean. A fit that raises changes no answer. to_json followed by read_json restores the table.", "quantifier": "all histories of fit, transform, splits, status, binning_table, build, plot, analysis, iv/woe, quality_score, information, to_json, read_json and set_params(user_splits, user_splits_fixed) calls, all data sets, all behaviours of prebinning and solver including raising", "why_tests_cant": "some attributes are written only when the data have missing records or only on some paths, so what a refit reports depends on the whole history; tests fit each object once.", "anchors": ["optbinning/binning/continuous_binning.py:ContinuousOptimalBinning._fit", "optbinning/binning/continuous_binning.py:ContinuousOptimalBinning._prebinning_refinement", "optbinning/binning/continuous_binning.py:ContinuousOptimalBinning._compute_prebins", "optbinning/binning/continuous_binning.py:ContinuousOptimalBinning.to_json", "optbinning/binning/continuous_binning.py:ContinuousOptimalBinning.read_json", "optbinning/binning/binning_statistics.py:ContinuousBinningTable.build"]}
{"id": "C83", "title": "Piecewise binning objects over any history of calls", "statement": "An OptimalPWBinning or ContinuousOptimalPWBinning object may be fitted again and queried in any order. Until some fit (or the fit of a fit_transform) succeeded, splits, status, binning_table and transform raise NotFittedError. Whether a fit or fit_transform succeeds, and what it raises or returns, does not depend on earlier calls; after a successful fit the object cannot be told from a new object fitted once, and its table describes the last data only. A fit that raises changes no answer. fit_transform(x, y, ...) returns what fit(x, y, ...) followed by transform(x, ...) with the same bounds returns. The status property says FEASIBLE only for a feasible regression.", "quantifier": "all histories of fit, fit_transform, transform, splits, status, binning_table and reading the estimator parameter, on any data, succeeding or failing at any stage; all inner binnings, regressions, estimators and metrics as deterministic functions that may raise; all lists of solver statuses", "why_tests_cant": "The claim is about every sequence of calls and every point where a fit can stop; the repository's tests fit each object once and never call ContinuousOptimalPWBinning.fit_transform against fit followed by transform with negative targets.", "anchors": ["optbinning/binning/piecewise/base.py:BasePWBinning._fit_binning", "optbinning/binning/piecewise/binning.py:OptimalPWBinning._fit", "optbinning/binning/piecewise/binning.py:OptimalPWBinning.fit_transform", "optbinning/binning/piecewise/continuous_binning.py:ContinuousOptimalPWBinning._fit", "optbinning/binning/piecewise/continuous_binning.py:ContinuousOptimalPWBinning.fit_transform", "optbinning/binning/piecewise/binning_information.py:retrieve_status"]}
{"id": "C84", "title": "MulticlassOptimalBinning over any history of calls", "statement": "A MulticlassOptimalBinning object may be fitted, saved, loaded, reconfigured and queried in any order. Until a fit succeeded or read_json was called, every method that needs a fitted object raises NotFittedError and no other does. A fit behaves as on a new object with the same parameters: it raises the same, and when it returns every later call answers the same; its table has one column per label of the clean records just fitted, each cell counting exactly the records of its class in its row, and transform is the mean of the one-vs-rest WoE of that table. A fit that raises changes no answer. to_json followed by read_json restores the table.", "quantifier": "all histories of fit, transform, splits, status, classes, binning_table, information, to_json, read_json and set_params of the user splits, on any data and file system, succeeding or failing at any stage; all prebinning methods and optimisers as deterministic functions that may raise", "why_tests_cant": "The claim is about every sequence of calls and every point where a fit can stop; the repository's tests fit each object once, never after a failed fit, and never save a table that was read from a file.", "anchors": ["optbinning/binning/multiclass_binning.py:MulticlassOptimalBinning._fit", "optbinning/binning/multiclass_binning.py:MulticlassOptimalBinning._prebinning_refinement", "optbinning/binning/multiclass_binning.py:MulticlassOptimalBinning._compute_prebins", "optbinning/binning/multiclass_binning.py:MulticlassOptimalBinning.to_json", "optbinning/binning/multiclass_binning.py:MulticlassOptimalBinning.read_json", "optbinning/binning/transformations.py:transform_multiclass_target"]}
{"id": "C85", "title": "Binning tables of the piecewise objects: build(), analysis() and statistics", "statement": "The table of a fitted OptimalPWBinning or ContinuousOptimalPWBinning has one row per bin, then one per special row, then Missing. Whatever was called before, build() returns their record counts and shares (which add up to 1), the coefficients of each bin's polynomial in columns c0, c1, ..., the event rate or mean of a special or missing row in c0, and column sums in Totals, which count every record of the fit once. analysis() tests neighbouring bins and nothing else, raises only when its statistic is undefined, and reports Cramer's V and a quality score in [0, 1]. analysis() and the statistics need a successful build(), quality_score a successful analysis().", "quantifier": "all fitted tables (any number of bins, coefficients and special rows, any counts), all histories of build, analysis, statistics and quality_score, all deterministic significance tests", "why_tests_cant": "The statements are about every table and every order of calls; the repository's tests compare a few cells of one table per class and no test uses a dict of special codes.", "anchors": ["optbinning/binning/piecewise/binning_statistics.py:PWBinningTable.build", "optbinning/binning/piecewise/binning_statistics.py:PWBinningTable.analysis", "optbinning/binning/piecewise/binning_statistics.py:PWContinuousBinningTable.build", "optbinning/binning/piecewise/binning_statistics.py:PWContinuousBinningTable.analysis"]}
{"id": "C86", "title": "Two-dimensional binning objects over any history of calls", "statement": "For OptimalBinning2D and ContinuousOptimalBinning2D (strategies grid and cart) and any earlier calls, successful or not: transform, splits, status, information, binning_table, build and analysis raise NotFittedError until a fit succeeded; a successful fit forgets everything before it, and the table, the splits and transform answer from the data just given; fit_transform is fit followed by transform; a fit that raises leaves the bins, and what transform and splits answer, as they were, and the status too; to_json saves the fitted table and read_json restores it; analysis needs a built table.", "quantifier": "all histories of calls with any data and parameters, all deterministic pre-binnings, trees, solvers and significance tests, any of which may raise", "why_tests_cant": "The repository's tests fit a fresh object once; the statements are about every order of calls, including fits that raise half-way.", "anchors": ["optbinning/binning/multidimensional/binning_2d.py:OptimalBinning2D", "optbinning/binning/multidimensional/continuous_binning_2d.py:ContinuousOptimalBinning2D", "optbinning/binning/multidimensional/binning_statistics_2d.py:BinningTable2D", "optbinning/binning/binning.py:OptimalBinning.to_json", "optbinning/binning/binning.py:OptimalBinning.read_json"]}
{"id": "C87", "title": "The tables of two-dimensional binnings as objects", "statement": "For every fit of OptimalBinning2D or ContinuousOptimalBinning2D (strategies grid and cart) that succeeds: build() shows one row per bin plus Special and Missing, counts and shares that add up to the data, event rates strictly between 0 and 1 and the WoE, IV and JS of every row with both classes, 0 for the others, and totals that are the sums of the rows; gini, iv, js, hellinger, triangular and ks are those of the rows and lie in their ranges; plot() succeeds for both metrics and shows in every cell of the grid the number and the value of the bin that contains the cell, and in the side panels the values along each grid row and column; transform with metric woe returns the WoE shown for the bin of the pair (or its special / missing row, or the number given); analysis() never fails, tests exactly the neighbouring bins on their own counts, accepts only the tests chi2 and fisher, and gives a quality score between 0 and 1; and after any history of calls the answers depend only on whether the table has been built and which analysis last succeeded.", "quantifier": "all data, special codes, axes (numerical or categorical), prebinning results, constraint options, sound solvers, significance tests and contents of uninitialised memory, and all histories of calls of the table", "why_tests_cant": "The repository's tests build a handful of tables on one dataset; that the cells of the figure, the columns and transform agree must hold for every fitted grid and every order of calls.", "anchors": ["optbinning/binning/multidimensional/binning_statistics_2d.py:BinningTable2D", "optbinning/binning/multidimensional/binning_statistics_2d.py:ContinuousBinningTable2D", "optbinning/binning/multidimensional/transformations_2d.py:transform_binary_target", "optbinning/binning/multidimensional/binning_2d.py:OptimalBinning2D._fit", "optbinning/binning/multidimensional/continuous_binning_2d.py:ContinuousOptimalBinning2D._fit", "optbinning/binning/metrics.py:continuous_binning_quality_score"]}
{"id": "C88", "title": "SBOptimalBinning objects over any history of calls", "statement": "For every history of fit, fit_transform, transform, splits, status, binning_table, binning_table_scenario, information, to_json and read_json on an SBOptimalBinning object: methods that need a fit raise NotFittedError exactly until a fit returned normally or read_json was called; fit_transform is fit followed by transform; asking changes nothing; a fit answers, and after a fit that returned normally everything answers, as on a new object, except the refinement counter of information, which is never reset. After such a fit the prebinning method has got every clean record of every scenario once, with the weight of its scenario; status and splits are those of the scenario optimisation (C65); binning_table has the summed counts and the range of all clean values; binning_table_scenario(i) the counts and the range of scenario i for every scenario i and raises ValueError for any other id; transform gives the row of a value, and the WoE or event rate displayed in that row of the summed table. A fit that raises leaves the binning shown before, or an empty one when no split point survives the refinement. to_json / read_json round-trips the table.", "quantifier": "all parameters, prebinning methods and solvers, all lists of scenarios (values, targets, weights), all histories of calls with failing calls included, all values and metrics passed to transform", "why_tests_cant": "Tests call fit once on one data set; what an object shows after any history of successful and failing calls, and that its rows and transforms match for every list of scenarios, is a statement about all histories and all data.", "anchors": ["optbinning/binning/uncertainty/binning_scenarios.py:264-335", "optbinning/binning/uncertainty/binning_scenarios.py:337-467", "optbinning/binning/uncertainty/binning_scenarios.py:469-623", "optbinning/binning/uncertainty/binning_scenarios.py:625-811", "optbinning/binning/preprocessing.py:288-320", "optbinning/binning/binning.py:1180-1234"]}
{"id": "C89", "title": "The figures of the one-dimensional binning tables", "statement": "plot() of BinningTable, ContinuousBinningTable and MulticlassBinningTable raises NotFittedError before build(), draws a figure exactly for the documented requests and raises TypeError or ValueError for any other; it changes nothing, and uses the labels of the last build() that succeeded. With style='bin', whatever rows are hidden by add_special and add_missing, the bars show the counts of the requested rows in order, stacked; the line joins the metric values of the bins; hatching, fading and legend are those of the special, missing and 'others' rows; markers show the metric of the rows under them and labels are theirs. With style='actual', bar i spans from the previous split to the next (min_x and max_x at the ends) with the counts of bin i, segment and marker are at its metric, the vertical lines at the splits, and every clean training value lies within the bar that counts it. The tables of fitted objects meet this for any data and any history of calls.", "quantifier": "all tables (any number of bins, special rows, classes up to 100, with or without 'others'), all arguments, all histories of build and plot, all data sets the objects are fitted to", "why_tests_cant": "The figure tests only check that plot() does not raise for a handful of argument combinations on one table; that what is drawn at each position belongs to the row there is a statement about all tables, all combinations of hidden rows and all special codes.", "anchors": ["optbinning/binning/binning_statistics.py:406-414", "optbinning/binning/binning_statistics.py:610-877", "optbinning/binning/binning_statistics.py:1228-1396", "optbinning/binning/binning_statistics.py:1700-1949"]}
{"id": "C90", "title": "The figures of scorecard/plots.py", "statement": "For scores and targets of the same length with both classes present: plot_cap draws a curve of n+1 points from (0,0) to (1,1), one step of 1/n per record, never above the perfect model's line, which at every threshold shows the share of events scored above it against the share of the population scored above it; the number shown is 2 AUC - 1, and equals the ratio of the areas in the picture (up to the share of tied pairs). plot_auc_roc shows the AUC, in [0,1] and consistent with the CAP figure. plot_ks shows the two cumulative distributions, a vertical line at their largest distance and the distance as a number. Invalid arguments are rejected before anything is drawn; a saving call writes what was drawn since the last saving call and starts a new figure.", "quantifier": "all scores and 0/1 targets of any length, every argsort (in particular unstable ones), all thresholds, all histories of calls", "why_tests_cant": "The tests only compare no figure at all (they check that the calls do not raise); the identity between label, curve and areas is over all data sets, and the dependence on the sort order of equal scores shows on no fixed data.", "anchors": ["optbinning/scorecard/plots.py:18-48", "optbinning/scorecard/plots.py:51-107", "optbinning/scorecard/plots.py:110-178", "optbinning/scorecard/plots.py:181-263"]}
{"id": "C91", "title": "Figures of a stream of data: plot_progress and psi_plot", "statement": "OptimalBinningSketch.plot_progress raises NotFittedError until a solve has succeeded; afterwards it shows one point per solve that succeeded, in order, at the number of records known then, with the divergence of the binning table published by that solve; the second line is the mean of the divergences so far, and the band around the first is none at the first solve, then contains the curve, stays above 0 and vanishes exactly when all divergences so far are equal. ScorecardMonitoring.psi_plot raises NotFittedError until a fit has succeeded; afterwards it shows, whatever was done before that fit or later short of another fit, one pair of bars per score bin, side by side, with the percentages of actual and expected records of that bin (100 in all) and lines through their event rates or means. It raises nothing else than ValueError (one score bin), or TypeError for an invalid savefig.", "quantifier": "all histories of add, merge and solve (clean merges), every correct solver and divergence; all histories of fits, parameter changes and scorecard refits of a monitoring with any scorecard and pre-binning, all data", "why_tests_cant": "No test looks at a figure; that its points are those of the successful solves, and that the bars belong to the same data as the lines, is a statement about all histories.", "anchors": ["optbinning/binning/distributed/plots.py:12-45", "optbinning/binning/distributed/binning_sketch.py:563-568", "optbinning/binning/distributed/binning_sketch.py:948-969", "optbinning/scorecard/monitoring.py:421-481", "optbinning/scorecard/monitoring.py:597-601"]}
{"id": "C92", "title": "Piecewise binning with an outlier detector", "statement": "With an outlier detector, OptimalPWBinning and ContinuousOptimalPWBinning filter the data twice: the estimator, the regression and the metrics get the clean records that are no outliers among the clean records, and each row of the binning table counts exactly the records of its bin that are also no outliers among those. So the rows count all the records the regression was fitted on exactly when the second pass finds nothing: without a detector, or with the z-score when more than half of the values are equal. With the z-score at least a quarter of the clean records are counted, with the equal-tailed range at most twice the bound of one pass is lost, and with the highest-density range a fit whose first pass is valid never fails in the second.", "quantifier": "all data, the three detectors with all parameters, all special codes, binary and continuous targets, every inner binning", "why_tests_cant": "The tests use data without outliers or look at the status only; that no record is lost, and how many at most, is about every data set.", "anchors": ["optbinning/binning/piecewise/base.py:341-348", "optbinning/binning/piecewise/base.py:361-405", "optbinning/binning/piecewise/binning.py:318-419", "optbinning/binning/piecewise/continuous_binning.py:305-396", "optbinning/binning/outlier.py"]}
{"id": "C93", "title": "Quantile and uniform pre-binning", "statement": "PreBinning with method uniform or quantile fails exactly for n_bins < 2 or without records, with ValueError. Otherwise the split points increase strictly, are fewer than n_bins and lie strictly between two records, so the first and last pre-bins are never empty; they do not depend on the order of the records, the sample weights or min_bin_size. uniform returns the n_bins-1 equidistant points between minimum and maximum of non-constant data. quantile on distinct values returns n_bins-1 points with ceil(i(m-1)/n_bins) of the m records below the i-th, so pre-bin sizes differ by at most two; when so many records equal the minimum that (n_bins-1)(m-1) <= n_bins(c-1), it returns none. Changing the unit of the variable (and of the tolerance) carries over to the split points.", "quantifier": "all integer data in a common unit up to 200000 records, all n_bins, weights, min_bin_size and tolerances", "why_tests_cant": "The tests compare the status or one table on one data set; the number of records per pre-bin and the collapse under ties are about every data set.", "anchors": ["optbinning/binning/prebinning.py:91-98", "optbinning/binning/prebinning.py:60-84"]}
{"id": "C94", "title": "What the piecewise regression is asked for", "statement": "OptimalPWBinning and ContinuousOptimalPWBinning with monotonic_trend=\"auto\" ask the regression for a trend decided by the bins' mean targets alone: ascending exactly for strictly increasing or all equal means, descending exactly for strictly decreasing ones, peak exactly for other means that rise and then fall, valley exactly for those that fall and then rise without peak shape, and no constraint exactly for one bin or means of no such shape. So auto never imposes a shape the bins' means do not have, and the request does not depend on the order of the records nor on the unit and origin of the target. When no record is lost between regression and table (always without an outlier detector), these means are the table's own Mean or Event rate column. A named trend goes to the regression as it is; convex and concave leave the inner binning on auto. With n_subsamples the regression is given that many clean records (all without it or when there are fewer), each with its own prediction and none twice.", "quantifier": "all clean records, non-decreasing split points with non-empty bins, all trends, subsample sizes and random permutations", "why_tests_cant": "The tests fit one data set with a few trends; which shape is imposed on which sequence of bin means, and the permutations of the subsample, are universal statements.", "anchors": ["optbinning/binning/piecewise/base.py:355-460", "optbinning/binning/auto_monotonic.py:417-439"]}
