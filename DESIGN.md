# Design: a Rocq (Coq 8.16) model of optbinning

Sources are read as text from `/repo/optbinning`; nothing is executed. Every definition in
`rocq/theories/Model/*.v` cites the file and lines it models and says where it simplifies.

## Layout

| directory | content |
|---|---|
| `theories/Model/*.v` | executable model, function by function, no proofs |
| `theories/Spec/*.v` | small independent specifications (intervals, tilings, monotone sequences, ranks, totals, ...) that do not use the model's algorithms |
| `theories/Proofs/*.v` | lemmas |
| `theories/Props/*.v` | the property theorems, each followed by `Print Assumptions` and an `Example ..._hyps_met` showing a concrete non-trivial case that meets the hypotheses |
| `tools/claims.py`, `tools/manifest.py` | source of `MANIFEST.json` |
| `tools/mutsnap.sh`, `tools/mutate.py`, `seeded/mutants/*.json`, `seeded/LOG.jsonl` | wrong programs: edits of the model and which theorems stopped proving |
| `tools/assumptions.py`, `ASSUMPTIONS.md` | output of `Print Assumptions` for every theorem |

Naming: `Cxx_..._partial` proves only part of the property (its comment says what is missing); `Cxx_..._refuted` proves that
a literal reading of the property is *false* of the modelled code, by a concrete execution. Status `partial` in the
manifest means: some part of the English statement is not proved, usually because it is refuted.

## Trusted base

1. Coq's kernel (including `vm_compute` conversion, used for concrete witnesses only).
2. `Print Assumptions` (per theorem in `ASSUMPTIONS.md`). Most theorems are *closed under the global context*. Theorems about
   logarithms, divergences, WoE, scorecards, PSI, standard deviations and polynomials use Coq's real numbers and rest on the
   standard library's `ClassicalDedekindReals.sig_forall_dec`, `ClassicalDedekindReals.sig_not_dec`,
   `FunctionalExtensionality.functional_extensionality_dep` and, through `ln`/`Rpower`/derivatives, `Classical_Prop.classic`.
   No other axiom; no functor, module type, section-less `Variable`, `Admitted` or switched-off check.
3. The faithfulness of the hand-written model (the code cannot be run here). The conventions below say where it abstracts.

### Conventions and idealisations

* **Compared values.** Every finite IEEE double is an integer multiple of 2^-1074; code that only *compares* values (splits,
  digitize, special codes, categories, sketch entries) is modelled exactly over `Z`. `NaN` is a separate constructor.
  Strings/categories are identified with integers.
* **Arithmetic.** Counts are `Z`; rates, means and costs are exact fractions (`Z` cross products or `Q`) or real numbers.
  Rounding errors of doubles are *not* modelled. Where the code itself truncates (int64 cells, scaled integers of the CP
  models, int-typed result arrays) the truncation *is* modelled, and several findings come from it.
* **Exceptions** are values (`res`, `exn`), non-termination is ruled out by fuel proved sufficient.
* **Oracles** are explicit arguments quantified over in the theorems: the pre-binning method (any sorted list of splits), CP-SAT
  (any assignment satisfying the posted constraints; optimal where optimality is claimed), statistical tests (any boolean
  function), the convex-hull ratio, the regression solver of piecewise binning, the estimator of the scorecard, sort order of
  ties, thread schedules.
* numpy masks, fancy indexing, in-place writes and aliasing are modelled on lists or, where sharing is observable
  (sketches, lifecycle, class weights), on an explicit heap/state.

## Plan per property: what is modelled and how it is proved

(status and theorem names: `MANIFEST.json`)

| id | model | proof |
|----|-------|-------|
| C01 | `Core.split_masks` (preprocessing.split_data masks) | masks are filters of the rows; counting by induction |
| C02 | `Core.digitize`, pointwise transform | induction on sorted splits; interval specification |
| C03 | whole numerical fit: split, `compute_prebins`, solver answer, `bin_info`, table rows; after any call history (`Lifecycle`) | merging = digitising with the selected splits; row weight = weight of the records transform sends there |
| C04 | `Cat` : cutoff, ordering by event rate, bins of categories, table, transform | counting/partition lemmas; refutations for user_splits |
| C05 | `compute_prebins` with fuel | measure = number of splits, fixpoint invariant `refined` |
| C06 | fixed mask in refinement + CP fixed constraints + lifecycle parameter handling | induction; feasibility |
| C07–C15 | `CP`: decision matrix, all constraint families of cp.py, preprocessing cuts, objective | assignments ↔ contiguous partitions; constraints decoded to statements on table rows; completeness by constructing the assignment; refutations by witness |
| C16, C17 | `bin_info`, fallback on no solution | induction on the solution vector |
| C18–C23 | `Metrics` over R: build(), divergences, WoE, KS, Gini, HHI, quality score | log-sum inequality, bounds, convexity |
| C24, C25 | pointwise transform with metric_special/missing | case analysis; refutation of default indices |
| C26, C49, C50, C59 | `Lifecycle`: state machine of OptimalBinning + BinningTable + files (fit, transform, table, information, to_json, read_json, user parameters as heap objects) | invariants over all call histories, simulation between histories and a fresh object |
| C27, C28, C51 | `Cont`: continuous target records, sums, std, min, max, zeros; continuous CP model; weighted Std (Spec/ContStdSpec.v) | as C03/C07–C15 for rational means |
| C29, C52, C53 | `Multi`, `MultiT`: per-class trends, table, mean WoE | as above per class |
| C30 | `AutoMono`: auto_monotonic decision functions, type_of_monotonic_trend | total case analysis over sign changes |
| C31 | `Mdlp`, `MdlpR`: recursion, accumulated splits, real entropies | induction over the recursion |
| C32, C33 | `GK`: add, flush, merge, compress, quantile | invariant of g/Δ over all histories |
| C34 | `BSketch`: heap with aliasing | induction over histories, separation of object graphs |
| C54–C56 | `OptSketch` (+categorical) | sketch rank bounds transferred to bin counts |
| C35–C39 | `Scorecard` points, scaling, rounding MIP, score | real algebra, min/max over rows, feasibility |
| C40–C42, C57 | `Process`: parallel fit blocks, selection, transform parameters, chunked transform, update | list/dict lemmas, permutation of schedules |
| C43 | `Monitor`: PSI tables | Gibbs inequality; counting |
| C44 | `Classif`, `Regression` | pair counting, sums |
| C45, C58 | `Piecewise` | clipping lemmas; refutations |
| C46, C60, C61 | `TwoD`, `TwoDCont`, `TwoDCart`: rectangles, cp_2d model, tables, transforms, leaf candidates | tilings of the grid; counting by cell; exchange with the specification "valid tiling" |
| C47 | `Outlier`: sort, quantiles, HDI, median/MAD, yquantile | order statistics lemmas |
| C48 | clean bounds fix_lb/fix_ub | case analysis, refutation |
| C62 | `Weights` | error propagated through merging; refutations |
| C63 | `Counterfactual` (MIP constraints and objectives over the reals) | bijection between feasible solutions and choices of rows; refutations |
| C64 | `solver="mip"`: constraints of mip.py over the reals | scaled by the product of all candidate totals the real model equals the integer model of C07-C15, so its lemmas transfer exactly; real telescoping objective; refutations |
| C65 | `SBOptimalBinning`: splitting, refinement over all scenarios, weights, flags, tables, `build_model_scenarios` | each scenario's fit is an instance of the ordinary fit, its constraints an instance of the ordinary model, so the row and trend lemmas transfer; one change point shared by all scenarios; refutations |
| C66 | `BinningProcessSketch`: start, add, mergeable/merge, solve, transform over arbitrary data sketches; histories as trees (a merge has the other process' history) | invariant: for every variable the process' object is the result of the projected history; projection commutes with add/merge/solve; refutations |
| C67 | `MulticlassBinningMIP.build_model` over reals: objective, structural constraints, trends per class with the switching constant n, violations, fixed splits; the fit of C52 around it | the constant n switches the same constraints as 1 because rates are in [0, 1]; then class by class as C64 |
| C68 | gamma of `Binning2DCP` (pmin/pmax variables, scaled penalty) and `Binning2DMIP.build_model` over real variables, on the grid model of C46 | real constraints on 0/1 values are the integer ones; optimal pmin/pmax are the smallest/largest bin; exchange argument for two values of gamma |
| C69 | `ContinuousBinningTable.build/analysis` (Model/ContTable.v) on the rows of the fit model of C10/C50 | every record lies in exactly one row, so column sums are sums over records; triangle inequality for the IV bounds and for merging; shift invariance row by row; refutations by computed fits |
| C70 | `MulticlassBinningTable.build/analysis`, `chi2_cramer_v`, `chi2_cramer_v_multi` (Model/MultiTable.v) on the fit models of C03 and C52 | entropy difference = mean KL to the mixture; log-sum inequality for bounds and merging; chi2/N + 1 = sum O²/(RC) gives the bound, Titu's lemma gives merging; positivity of merged refined prebins |
| C71 | `BinningProcess` as a state machine over its public calls (Model/ProcLife.v): options per variable, fit/fit_disk/fit_from_dict, selection, update, summary, support, transform; column fits are arbitrary partial functions | an invariant on reachable states (one entry per name in the dictionaries), a simulation between an object with a history and a new one, C41 for the selection; refutations by computed histories |
| C72 | the threshold array of an arbitrary tree, the -2 filter, rounding to a multiple of U = 10^-digits in exact units, the three fits and the categorical fit on rounded splits (Model/Prebin.v) | in-order traversal of a grown tree is increasing with at least m records between neighbours, coarsening keeps that; rounding is monotone; instances of C03/C27/C52 |
| C73 | exact decimal printing (round half even, sign of the exact value), bin_str_format, the label list of a table, transform(metric='bins') (Model/Label.v) | reading the printed digits back is a left inverse of printing, separators do not occur in numbers, so labels are injective up to rounding; rounding is monotone, so a collision forces three equal prints in a row |
| C74 | the object's attributes as a state, every public call as a step with the assignments in program order, failures at each one (Model/ScoreLife.v) | invariants over histories; the state after a successful fit is computed explicitly, so it does not mention the old state except intercept_; score by C39's theorem |
| C75 | get_paths / get_pairs and the contingency tables of analysis, on the label matrix of C46/C60/C61 (Model/TwoDPairs.v); neighbours read off the displayed intervals (Spec/TwoDPairsSpec.v) | collapsing a row whose labels are convex keeps exactly the label changes; label changes are the adjacent rectangles of the tiling; connectivity by walking the grid; chi-square facts from C70 |
| C76 | the monitoring object with its assignments in program order, histories of fit / set_params / refit of the shared scorecard, all reads and the classification printed by the report (Model/MonLife.v); counts by interval, populated bins, performance (Spec/MonLifeSpec.v) | fit as a chain of setters that overwrite every field read; invariant 'fitted implies complete' by induction over histories; counts from C43, chi-square of a 2x2 table (Proofs/IndepP.v), metrics from C44 |
| C77 | x, a, z with the recursion of ls.py, model.at as an index into the reversed rows, every constraint family, the objective, the solution vector (Model/LS.v); what the assignment selects, the request on exact rates, trends up to resolution (Spec/LSSpec.v) | a counts the prebins pending since the last selected one (induction over the prebins), so assignments are partitions; each constraint equals that of cp.py on the matrix of the partition, then the lemmas for C07-C17; the gap min_event_rate_diff by scaling of floors |
| C78 | the object with its flags, the checks of a request, the transformation of a table, the problem posed, entries and frames (Model/CounterLife.v, on Model/Counterfactual.v); acceptable requests, traces, frames shown (Spec/CounterLifeSpec.v) | flags by induction over the trace; two runs alike up to fields no read can see; the object in step with its scorecard, then the theorems of C63 for the problem posed; refutations general (equal choices, several rows) or by concrete objects |
| C79 | Python values as the checks see them, the idioms of the checks, every _check_parameters as the list of its statements, the options handed from one class to another (Model/Options.v); types and ranges of the documentation (Spec/OptionSpec.v) | each idiom equivalent to its range (nan, infinities, booleans, complex numbers, arrays of one element); a check passes iff all its statements pass; composition for the inner binnings; refutations by values or general |
| C80 | the two-proportion statistic, its comparison with the normal quantile, chi-square and Fisher p-values of a two-by-two table, the p-value column of analysis, the Welch comparison on candidate moments, the Bayesian columns (Model/PValue.v); normal law, displayed statistics (Spec/PValueSpec.v) | field identity chi-square = z squared; monotonicity of the law; composition with C14/C28 on the fitted table; counterexample valid for every law |
| C81 | OptimalBinningSketch state and its add / merge / solve / queries, numerical (gk) and categorical (Model/SketchLife.v); call trees, records, last good solve (Spec/SketchLifeSpec.v) | induction over call trees with a data invariant tying the GK states to call histories of C32/C33; reduction of each solve to C54/C55/C56; canonical form of exact sketches; counterexamples |
| C82 | ContinuousOptimalBinning object, its table and json files as a state machine on top of Model/Cont.v (Model/ContLife.v); call histories, missing records, last data with missing records (Spec/ContLifeSpec.v) | each fit factors through an outcome that depends on parameters and data only; induction over histories; reduction of every successful fit to C27; counterexamples |
| C83 | The two piecewise objects as a state machine with the inner binning, regression, estimator and metrics as functions that may raise, retrieve_status on strings (Model/PWLife.v); records and words counted in Spec/PWLifeSpec.v | each fit factors through how far it gets; induction over histories; counterexamples |
| C84 | The object as a state machine with prebinning and optimiser as functions that may raise (Model/MultiLife.v, one fit as in Model/Multi.v); labels and clean records in Spec/MultiLifeSpec.v | each fit factors through how far it gets; simulation up to the refinement count over all histories; a successful fit is a run of fit_multi so C52/C53 apply; counterexamples |
| C85 | build, analysis and the table object's flags over real arithmetic (Model/PWTable.v); row layout, shown rate and compared rows in Spec/PWTableSpec.v | list lemmas; chi-square undefined iff an empty row or class; quality bounds of C31; induction over histories; partition of the records of a fit (C83) over the rows; counterexamples |
| C86 | both classes as one state machine over fit2/fit3 of C46/C60/C61, with what each failing fit has already assigned (Model/TwoDLife.v); vocabulary in Spec/TwoDLifeSpec.v | case analysis on where the fit stops, induction over histories, C46's partition theorem for the plane; counterexamples |
| C87 | build, statistics, D and W matrices over uninitialised memory, plot's step lines over get_paths, analysis, woe transform and the flags of the table object (Model/TwoDTable.v), on the fits of C46/C60/C61; vocabulary in Spec/TwoDTableSpec.v | grid tiling gives cells = bins, run-length lemma for the step lines, C19/C22 for the statistics, C75 for the pairs, induction over histories; counterexamples |
| C88 | constructor state, fit with everything a failing fit has already assigned, split_data_scenarios, scenario and main tables with their ranges, transform, the inherited json methods, all calls (Model/ScenLife.v), on sb_fit of C65; vocabulary in Spec/ScenLifeSpec.v | inversion of a fit (fit_run), refinement to sb_fit (fit_done), simulation of alike objects, induction over histories, C02/C21/C25 for transform; counterexamples |
| C89 | plot of the three tables: argument checks, list.pop loops that hide rows, stacking, positions of the special/missing/others markers, tick labels, the actual style, build/plot as a state machine (Model/TablePlot.v); the tables of fitted objects through C03, C69, C82 and C84; vocabulary in Spec/TablePlotSpec.v | closed form of the figure by row lists (plot_bins_eq, plot_actual_ok), exact iff conditions for markers and labels, counterexamples on a fitted object |
| C90 | plot_auc_roc, plot_cap, plot_ks: argument checks, sorting, cumulative counts, the points and the numbers, argmax, and pyplot's current figure with plt.close() only after savefig (Model/ScorePlots.v); shares, pairs, areas in Spec/ScorePlotsSpec.v | sorted records as a permutation of the data; area of the polygon = pairs in order (induction), pairs against ties on a sorted list; argmax specification; counterexamples with two admissible argsorts |
| C91 | plot_progress, rolling mean and standard error, the statistics rows of a solve (Model/Progress.v on Model/SketchLife.v); psi_plot with the attributes it reads, _metric_a/_metric_e as a component of their own (Model/PsiPlot.v on Model/MonLife.v) | rows = successful solves (C81 invariant), sums of squares; monitoring: counts partition the records (C43), invariants over runs; counterexamples by computation |
| C92 | remove_outliers twice, the inner table's rows, the counts set aside (Model/PWOutlier.v on Model/Outlier.v, Model/PWLife.v) | flags of C47 for each pass; bins partition the survivors; counting; counterexample by computation |
| C93 | PreBinning.fit for uniform and quantile with KBinsDiscretizer's edges (Model/Unsup.v) | slope >= 1 of the quantile function of distinct integers, counting prefixes of the sorted records, edges dropped by induction; counterexamples by computation |
| C94 | _fit_binning's requests and subsample (Model/PWTrend.v) | the request characterised by shapes of the true bin means, invariant under sequences ordered alike; permutations of positions; against the table: composed with the two-pass outlier model of C92 (Props/PWTrendTableProps.v); counterexamples by computation |
| C08, C29, C46, C61, C65 (bound) | `Model/Scaled.v`: the objective coefficients are divergences scaled and truncated to integers | generic lemma: a larger truncated total is a larger real total up to (number of bins)/M; combined with the exact integer optimality theorems |

## Modelled code / not modelled code

| file | modelled | not modelled |
|---|---|---|
| binning/preprocessing.py | split_data (masks, special dict/list, weights, class weights, outliers, fix_lb/ub), categorical_cutoff, categorical transform, split_data_scenarios | numpy dtype checks |
| binning/binning.py | fit, prebinning refinement, optimizer dispatch, user splits/fixed, transform, information counters, to_json/read_json | logging, timers, parameter validation messages |
| binning/prebinning.py, sklearn trees | arbitrary sorted splits; for C72 the thresholds of an arbitrary tree and their filter; for C93 the quantile and uniform edges | how the tree is grown (MDLP and the quantile/uniform edges are modelled) |
| binning/mdlp.py | all | – |
| binning/cp.py, mip.py, ls.py, model_data.py | all constraint families and objective (ls.py raises before posting them: six values unpacked of five, C77_fit_raises_refuted) | solver parameters |
| binning/transformations.py | binary, continuous, multiclass transforms | pandas/str formatting of metric="bins" beyond the bin identity |
| binning/metrics.py, binning_statistics.py | build(), WoE, IV, JS, Hellinger, triangular, KS, Gini, HHI, quality score, trend reported by analysis, the data of plot's figures (C89) | colours and files of plots, chi² of analysis text |
| binning/continuous_*.py, multiclass_*.py | fit, CP, multiclass MIP, tables (columns, totals, IV, JS, Cramér's V), transform, the data of plot's figures (C89) | Std column, colours of plots |
| binning/auto_monotonic.py, outlier.py | all (convex hull ratio arbitrary) | scipy ConvexHull |
| binning/multidimensional/* | grid & cart candidates, CP and MIP models, tables (columns, statistics, figures, analysis), transforms (binary + continuous), objects over call histories | labels, colours and axes of plots |
| binning/distributed/{gk,bsketch,binning_sketch,binning_process_sketch}.py | add/merge/quantile, sketches, solve, table, transform, process sketches, plot_progress | t-digest, pickling |
| binning/piecewise/* | binning, clipping, tables, transforms | the regression (ropwr) |
| binning/binning_process.py | fit (n_jobs), fit_disk, fit_from_dict, option hand-over, parameter ranges, selection, transform, transform_disk chunks, update_binned_variable, call histories | file reading, logging, save/load (pickle) |
| scorecard/{scorecard,rounding,monitoring}.py | points, scaling, rounding, score, PSI tables, psi_plot | estimator |
| scorecard/plots.py | curves, numbers, pyplot's current figure (C90) | texts, colours, sklearn's roc_curve (any function) |
| metrics/* | gini, ks, confusion, regression metrics | – |
| scorecard/counterfactual | candidates, MIP constraints, objectives, weighted and hierarchical optimisation, displayed values, the object over its call histories (C78) | fit of means, covariance and piecewise segments (arbitrary inputs), solver search |
| binning/uncertainty/binning_scenarios.py | fit over scenarios, expected objective, tables, transform, the object over histories of calls (C88) | plots, metric "bins", set_params |

## Findings

Every `_refuted` theorem is a defect or surprising behaviour of the pinned commit with a concrete execution in the model; the
manifest note of its property describes it.

## Wrong programs

`seeded/LOG.jsonl` records edits of the model (wrong boundary, swapped argument, dropped update, missed case ...), the theorems
that stopped proving and those tightened afterwards. Entries whose claim is `none` are controls: edits that change nothing
claimed.
