(** What the options may be, in the words of the documentation: types and
    ranges, nothing about the code that checks them. *)
From Coq Require Import ZArith QArith List String.
From Verif Require Import Model.Options.
Import ListNotations.
Open Scope string_scope.
Open Scope list_scope.

(** the option was left at None *)
Definition optional (P : pyv -> Prop) (v : pyv) : Prop := v = VNone \/ P v.

(** a whole number (True and False are the numbers 1 and 0) *)
Inductive whole : pyv -> Z -> Prop :=
| whole_int np z : whole (VInt np z) z
| whole_true : whole (VBool true) 1
| whole_false : whole (VBool false) 0.
Definition int_at_least (k : Z) (v : pyv) : Prop := exists z, whole v z /\ (k <= z)%Z.
Definition int_between (lo hi : Z) (v : pyv) : Prop := exists z, whole v z /\ (lo <= z <= hi)%Z.

(** a real number other than nan and the infinities *)
Inductive real : pyv -> Q -> Prop :=
| real_whole v z : whole v z -> real v (inject_Z z)
| real_float q : real (VFloat (NFin q)) q.
Definition real_in (P : Q -> Prop) (v : pyv) : Prop := exists q, real v q /\ P q.
(** a real number with the property, +inf, or nan *)
Definition real_or_top (P : Q -> Prop) (v : pyv) : Prop :=
  real_in P v \/ v = VFloat NPosInf \/ v = VFloat NNaN.

(** both limits given: the lower is not above the upper *)
Definition ordered (a b : pyv) : Prop :=
  forall p q, real a p -> real b q -> (p <= q)%Q.

Definition a_string (v : pyv) : Prop := exists s, v = VStr s.
Definition a_bool (v : pyv) : Prop := exists b, v = VBool b.
Definition a_dict (v : pyv) : Prop := exists l, v = VDict l.
Definition a_list (v : pyv) : Prop := exists l, v = VList l \/ v = VArr l.
Definition list_of (v : pyv) (l : list pyv) : Prop := v = VList l \/ v = VArr l.
Definition a_number (v : pyv) : Prop :=
  (exists z, whole v z) \/ (exists f, v = VFloat f) \/ v = VComplex.

(** one of the names, possibly wrapped in arrays of one element *)
Inductive named (names : list string) : pyv -> Prop :=
| named_str s : In s names -> named names (VStr s)
| named_arr v : named names v -> named names (VArr [v]).
(** a real number in the range, possibly as a numpy boolean or wrapped in
    arrays of one element *)
Inductive loosely (P : Q -> Prop) : pyv -> Prop :=
| loose_real v : real_in P v -> loosely P v
| loose_npbool (b : bool) : P (if b then 1 else 0)%Q -> loosely P (VNpBool b)
| loose_arr v : loosely P v -> loosely P (VArr [v]).

Definition between_open_closed (hi : Q) (q : Q) : Prop := (0 < q /\ q <= hi)%Q.
Definition unit_interval (q : Q) : Prop := (0 <= q /\ q <= 1)%Q.
Definition open_unit (q : Q) : Prop := (0 < q /\ q < 1)%Q.
Definition one_half : Q := 1 # 2.

(** the groups of options several classes share *)
Definition int_limits (a b : pyv) : Prop :=
  optional (int_at_least 1) a /\ optional (int_at_least 1) b /\ ordered a b.
Definition size_limits (a b : pyv) : Prop :=
  optional (real_in (between_open_closed one_half)) a /\
  optional (real_in (between_open_closed 1)) b /\ ordered a b.
Definition bins_and_sizes (o : opts) : Prop :=
  int_limits (o "min_n_bins") (o "max_n_bins") /\
  size_limits (o "min_bin_size") (o "max_bin_size").
Definition event_limits (o : opts) : Prop :=
  int_limits (o "min_bin_n_nonevent") (o "max_bin_n_nonevent") /\
  int_limits (o "min_bin_n_event") (o "max_bin_n_event").
Definition pvalue_options (o : opts) : Prop :=
  optional (real_in (between_open_closed 1)) (o "max_pvalue") /\
  named ["all"; "consecutive"] (o "max_pvalue_policy").
Definition cat_options (o : opts) : Prop :=
  optional (real_in (between_open_closed 1)) (o "cat_cutoff") /\
  optional (fun v => a_number v \/ a_string v) (o "cat_unknown").
(** outlier_params is looked at only if a detector is asked for *)
Definition outlier_options (names : list string) (o : opts) : Prop :=
  o "outlier_detector" = VNone \/
  (named names (o "outlier_detector") /\ optional a_dict (o "outlier_params")).
(** the flags are Python booleans, one for each split *)
Definition user_split_options (o : opts) : Prop :=
  optional a_list (o "user_splits") /\
  (o "user_splits_fixed" = VNone \/
   exists s f, list_of (o "user_splits") s /\ list_of (o "user_splits_fixed") f /\
     List.length s = List.length f /\ forall x, In x f -> a_bool x).
Definition special_list (v : pyv) : Prop := a_list v.
Definition special_list_or_dict (v : pyv) : Prop :=
  a_list v \/ exists l, v = VDict l /\ l <> [].
Definition weights_option (v : pyv) : Prop := a_dict v \/ v = VStr "balanced".
Definition digits_option (o : opts) : Prop := optional (int_between 0 8) (o "split_digits").
Definition not_below (lo : Q) (v : pyv) : Prop := real_or_top (fun q => (lo <= q)%Q) v.

Definition all_trends : list string :=
  ["ascending"; "descending"; "concave"; "convex"; "peak"; "valley";
   "peak_heuristic"; "valley_heuristic"; "auto"; "auto_heuristic"; "auto_asc_desc"].
Definition all_divergences : list string := ["iv"; "js"; "hellinger"; "triangular"].
Definition prebin_options (o : opts) : Prop :=
  int_at_least 2 (o "max_n_prebins") /\
  loosely (between_open_closed one_half) (o "min_prebin_size").

(** OptimalBinning *)
Definition binary_options (o : opts) : Prop :=
  a_string (o "name") /\
  named ["numerical"; "categorical"] (o "dtype") /\
  named ["cart"; "mdlp"; "quantile"; "uniform"] (o "prebinning_method") /\
  named ["cp"; "mip"; "ls"] (o "solver") /\
  named all_divergences (o "divergence") /\
  prebin_options o /\ bins_and_sizes o /\ event_limits o /\
  optional (named all_trends) (o "monotonic_trend") /\
  real_in unit_interval (o "min_event_rate_diff") /\
  pvalue_options o /\
  not_below 0 (o "gamma") /\
  outlier_options ["range"; "zscore"] o /\
  optional weights_option (o "class_weight") /\
  cat_options o /\ user_split_options o /\
  optional special_list_or_dict (o "special_codes") /\
  digits_option o /\
  named ["bop"; "cbc"] (o "mip_solver") /\
  not_below 0 (o "time_limit") /\
  a_bool (o "verbose").

(** ContinuousOptimalBinning *)
Definition continuous_options (o : opts) : Prop :=
  a_string (o "name") /\
  named ["numerical"; "categorical"] (o "dtype") /\
  named ["cart"; "quantile"; "uniform"] (o "prebinning_method") /\
  prebin_options o /\ bins_and_sizes o /\
  optional (named all_trends) (o "monotonic_trend") /\
  not_below 0 (o "min_mean_diff") /\
  pvalue_options o /\
  not_below 0 (o "gamma") /\
  outlier_options ["range"; "zscore"; "yquantile"] o /\
  cat_options o /\ user_split_options o /\
  optional special_list_or_dict (o "special_codes") /\
  digits_option o /\
  not_below 0 (o "time_limit") /\
  a_bool (o "verbose").

(** MulticlassOptimalBinning: one automatic trend for all classes, or a list
    with a trend or None for each *)
Definition class_trends (v : pyv) : Prop :=
  (exists s, v = VStr s /\ In s ["auto"; "auto_heuristic"; "auto_asc_desc"]) \/
  (exists l, v = VList l /\ forall t, In t l -> optional (named all_trends) t).
Definition multiclass_options (o : opts) : Prop :=
  a_string (o "name") /\
  named ["cart"; "quantile"; "uniform"] (o "prebinning_method") /\
  named ["cp"; "mip"] (o "solver") /\
  prebin_options o /\ bins_and_sizes o /\
  optional class_trends (o "monotonic_trend") /\
  real_in unit_interval (o "min_event_rate_diff") /\
  pvalue_options o /\
  outlier_options ["range"; "zscore"] o /\
  user_split_options o /\
  optional special_list_or_dict (o "special_codes") /\
  digits_option o /\
  named ["bop"; "cbc"] (o "mip_solver") /\
  not_below 0 (o "time_limit") /\
  a_bool (o "verbose").

(** OptimalBinningSketch *)
Definition sketch_options (o : opts) : Prop :=
  a_string (o "name") /\
  named ["numerical"; "categorical"] (o "dtype") /\
  named ["gk"; "t-digest"] (o "sketch") /\
  real_in unit_interval (o "eps") /\
  int_at_least 1 (o "K") /\
  named ["cp"; "mip"] (o "solver") /\
  named all_divergences (o "divergence") /\
  int_at_least 2 (o "max_n_prebins") /\
  bins_and_sizes o /\ event_limits o /\
  optional (named all_trends) (o "monotonic_trend") /\
  real_in unit_interval (o "min_event_rate_diff") /\
  pvalue_options o /\
  not_below 0 (o "gamma") /\
  cat_options o /\
  a_bool (o "cat_heuristic") /\
  optional special_list (o "special_codes") /\
  digits_option o /\
  named ["bop"; "cbc"] (o "mip_solver") /\
  not_below 0 (o "time_limit") /\
  a_bool (o "verbose").

(** SBOptimalBinning *)
Definition scenario_options (o : opts) : Prop :=
  a_string (o "name") /\
  named ["cart"; "quantile"; "uniform"] (o "prebinning_method") /\
  prebin_options o /\ bins_and_sizes o /\
  optional (named ["ascending"; "descending"; "concave"; "convex"; "peak"; "valley"])
    (o "monotonic_trend") /\
  real_in unit_interval (o "min_event_rate_diff") /\
  pvalue_options o /\
  optional weights_option (o "class_weight") /\
  user_split_options o /\
  optional special_list (o "special_codes") /\
  digits_option o /\
  not_below 0 (o "time_limit") /\
  a_bool (o "verbose").

(** the two 2D classes *)
Definition axis_options (o : opts) : Prop :=
  a_string (o "name_x") /\ a_string (o "name_y") /\
  named ["numerical"; "categorical"] (o "dtype_x") /\
  named ["numerical"; "categorical"] (o "dtype_y") /\
  named ["cart"; "mdlp"; "quantile"; "uniform"] (o "prebinning_method") /\
  named ["grid"; "cart"] (o "strategy") /\
  named ["cp"; "mip"] (o "solver") /\
  int_at_least 2 (o "max_n_prebins_x") /\ int_at_least 2 (o "max_n_prebins_y") /\
  loosely (between_open_closed one_half) (o "min_prebin_size_x") /\
  loosely (between_open_closed one_half) (o "min_prebin_size_y") /\
  bins_and_sizes o /\
  optional (named ["ascending"; "descending"]) (o "monotonic_trend_x") /\
  optional (named ["ascending"; "descending"]) (o "monotonic_trend_y") /\
  not_below 0 (o "gamma") /\
  optional special_list (o "special_codes_x") /\
  optional special_list (o "special_codes_y") /\
  digits_option o /\
  optional (fun v => exists z, whole v z) (o "n_jobs") /\
  not_below 0 (o "time_limit") /\
  a_bool (o "verbose").
Definition options_2d (o : opts) : Prop :=
  axis_options o /\ named all_divergences (o "divergence") /\ event_limits o /\
  real_in unit_interval (o "min_event_rate_diff_x") /\
  real_in unit_interval (o "min_event_rate_diff_y").
Definition options_cont_2d (o : opts) : Prop :=
  axis_options o /\ a_number (o "min_mean_diff_x") /\ a_number (o "min_mean_diff_y").

(** piecewise binning: the estimator needs fit and predict_proba (binary
    target), fit and predict (continuous target) *)
Definition estimator_option (problem_type : string) (v : pyv) : Prop :=
  (problem_type = "classification" -> exists p c, v = VObj true p true c) /\
  (problem_type = "regression" -> exists p c, v = VObj true true p c).
Definition pw_options (problem_type : string) (o : opts) : Prop :=
  a_string (o "name") /\
  optional (estimator_option problem_type) (o "estimator") /\
  named ["l1"; "l2"; "huber"; "quantile"] (o "objective") /\
  int_between 0 5 (o "degree") /\
  a_bool (o "continuous") /\ a_bool (o "continuous_deriv") /\
  named ["cart"; "quantile"; "uniform"] (o "prebinning_method") /\
  loosely (between_open_closed one_half) (o "min_prebin_size") /\
  bins_and_sizes o /\
  optional (named ["auto"; "ascending"; "descending"; "concave"; "convex"; "peak"; "valley"])
    (o "monotonic_trend") /\
  (named ["concave"; "convex"] (o "monotonic_trend") -> int_between 0 1 (o "degree")) /\
  optional (int_at_least 1) (o "n_subsamples") /\
  pvalue_options o /\
  outlier_options ["range"; "zscore"; "yquantile"] o /\
  user_split_options o /\
  optional (fun v => a_list v \/ a_dict v) (o "special_codes") /\
  digits_option o /\
  named ["auto"; "ecos"; "osqp"; "direct"; "scs"; "highs"] (o "solver") /\
  not_below 1 (o "h_epsilon") /\
  real_in open_unit (o "quantile") /\
  optional (named ["l1"; "l2"]) (o "regularization") /\
  not_below 0 (o "reg_l1") /\ not_below 0 (o "reg_l2") /\
  optional (fun v => (exists b, v = VBool b) \/ (exists z, v = VInt false z) \/
                     exists a b c, v = VObj a b c "RandomState") (o "random_state") /\
  a_bool (o "verbose").

(** BinningProcess and BinningProcessSketch *)
Definition names_list (v : pyv) : Prop :=
  exists l, list_of v l /\ forall x, In x l -> a_string x.
Definition process_sketch_options (o : opts) : Prop :=
  a_list (o "variable_names") /\
  int_at_least 2 (o "max_n_prebins") /\
  bins_and_sizes o /\ pvalue_options o /\
  optional a_dict (o "selection_criteria") /\
  optional names_list (o "categorical_variables") /\
  optional special_list (o "special_codes") /\
  digits_option o /\
  optional a_dict (o "binning_fit_params") /\
  optional a_dict (o "binning_transform_params") /\
  a_bool (o "verbose").
Definition process_options (o : opts) : Prop :=
  a_list (o "variable_names") /\
  prebin_options o /\ bins_and_sizes o /\ pvalue_options o /\
  optional a_dict (o "selection_criteria") /\
  optional a_list (o "fixed_variables") /\
  optional names_list (o "categorical_variables") /\
  optional special_list_or_dict (o "special_codes") /\
  digits_option o /\
  optional a_dict (o "binning_fit_params") /\
  optional a_dict (o "binning_transform_params") /\
  optional (fun v => exists z, whole v z) (o "n_jobs") /\
  a_bool (o "verbose").

(** selection criteria: the metrics each target has, bounds inside the range
    of the metric (or nan), highest or lowest, a number or a share to keep *)
Definition target_metrics (target : string) (m : string) : Prop :=
  match target with
  | "binary" => In m ["iv"; "js"; "gini"; "quality_score"]
  | "multiclass" => In m ["js"; "quality_score"]
  | _ => In m ["woe"; "quality_score"]
  end.
(** a value a comparison can be made with *)
Inductive compares : pyv -> num -> Prop :=
| cmp_whole v z : whole v z -> compares v (NFin (inject_Z z))
| cmp_float f : compares (VFloat f) f
| cmp_npbool (b : bool) : compares (VNpBool b) (NFin (if b then 1 else 0)%Q)
| cmp_arr v x : compares v x -> compares (VArr [v]) x.
Definition criterion (metric k : string) (v : pyv) : Prop :=
  (k = "min" /\ exists x, compares v x /\
     (x = NNaN \/ x = NPosInf \/ exists q, x = NFin q /\ (0 <= q)%Q)) \/
  (k = "max" /\ exists x, compares v x /\
     (x = NNaN \/ x = NNegInf \/
      (x = NPosInf /\ ~ In metric ["gini"; "quality_score"]) \/
      exists q, x = NFin q /\ (In metric ["gini"; "quality_score"] -> q <= 1)%Q)) \/
  (k = "strategy" /\ named ["highest"; "lowest"] v) \/
  (k = "top" /\ (int_at_least 1 v \/
     ((forall z, ~ whole v z) /\ exists q, compares v (NFin q) /\ (0 < q < 1)%Q))).
Definition criteria (target : string) (l : list (string * pyv)) : Prop :=
  forall m v, In (m, v) l ->
    target_metrics target m /\
    exists info, v = VDict info /\ forall k x, In (k, x) info -> criterion m k x.

(** Scorecard *)
Definition scorecard_options (o : opts) : Prop :=
  (exists a b c, o "binning_process" = VObj a b c "BinningProcess") /\
  (exists p c, o "estimator" = VObj true true p c) /\
  (o "scaling_method" = VNone \/
   named ["pdo_odds"; "min_max"] (o "scaling_method") /\ a_dict (o "scaling_method_params")) /\
  a_bool (o "intercept_based") /\ a_bool (o "reverse_scorecard") /\
  a_bool (o "rounding") /\
  (o "rounding" = VBool true -> o "scaling_method" <> VNone) /\
  a_bool (o "verbose").
(** params is a dict: no key twice *)
Definition pdo_params (l : list (string * pyv)) : Prop :=
  (forall k, In k (map fst l) <-> In k ["pdo"; "odds"; "scorecard_points"]) /\
  forall k v, In (k, v) l -> real_or_top (fun q => (0 < q)%Q) v.
Definition whole_number (v : pyv) : Prop := exists q z, real v q /\ (q == inject_Z z)%Q.
Definition min_max_params (rounding : bool) (l : list (string * pyv)) : Prop :=
  (forall k, In k (map fst l) <-> In k ["min"; "max"]) /\
  forall a b, In ("min", a) l -> In ("max", b) l ->
    (exists x, compares a x) /\ a_number a /\ (exists y, compares b y) /\ a_number b /\
    (forall x y, compares a x -> compares b y ->
       x = NNaN \/ y = NNaN \/ x = NNegInf \/ y = NPosInf \/
       exists p q, x = NFin p /\ y = NFin q /\ (p <= q)%Q) /\
    (rounding = true -> whole_number a /\ whole_number b).

(** ScorecardMonitoring, MDLP, BSketch *)
Definition monitoring_options (o : opts) : Prop :=
  (exists a b c, o "scorecard" = VObj a b c "Scorecard") /\
  named ["uniform"; "quantile"; "cart"] (o "psi_method") /\
  optional (int_at_least 1) (o "psi_n_bins") /\
  optional (real_in (between_open_closed one_half)) (o "psi_min_bin_size") /\
  int_between 0 8 (o "show_digits") /\
  a_bool (o "verbose").
Definition mdlp_options (o : opts) : Prop :=
  int_at_least 2 (o "min_samples_split") /\
  int_at_least 1 (o "min_samples_leaf") /\
  int_at_least 1 (o "max_candidates").
Definition bsketch_options (o : opts) : Prop :=
  named ["gk"; "t-digest"] (o "sketch") /\
  real_in unit_interval (o "eps") /\
  int_at_least 1 (o "K") /\
  optional special_list (o "special_codes").

(** arguments of transform and build *)
Definition metric_values (special missing : pyv) : Prop :=
  (special = VStr "empirical" \/ a_number special \/
   exists l, special = VDict l /\ forall k v, In (k, v) l -> a_number v) /\
  (missing = VStr "empirical" \/ a_number missing).
Definition unknown_value (metric : string) (v : pyv) : Prop :=
  v = VNone \/
  match metric with
  | "bins" => a_string v
  | "indices" => (exists b, v = VBool b) \/ exists z, v = VInt false z
  | "woe" | "event_rate" | "mean" => a_number v
  | _ => True
  end.
