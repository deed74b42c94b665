(** Validation of options: every [_check_parameters] of the package and the
    checks of the arguments of transform, build and selection criteria.

    Python values are modelled as far as the checks can look at them: type,
    truth of comparisons, length, elements, attributes.  Simplifications:
    keys of dicts are strings; arrays are lists of their elements (no 0-d
    arrays); an array of one element compares like its element, any other
    array has no truth value (ValueError); Decimal and Fraction values are the
    [VFloat]s of the same value. *)
From Coq Require Import ZArith QArith List String Bool.
From Verif Require Import Model.Arr.
Import ListNotations.
Open Scope string_scope.
Open Scope list_scope.

(** numbers as comparisons see them; every comparison with nan is false *)
Inductive num := NNaN | NNegInf | NPosInf | NFin (q : Q).

Inductive pyv :=
| VNone
| VBool (b : bool)
| VInt (np : bool) (z : Z)             (* int, or a numpy integer *)
| VFloat (f : num)                     (* float, numpy.float64 *)
| VComplex
| VNpBool (b : bool)                   (* numpy.bool_: not a numbers.Number *)
| VStr (s : string)
| VList (l : list pyv)
| VTuple (l : list pyv)
| VArr (l : list pyv)                  (* numpy.ndarray *)
| VDict (l : list (string * pyv))
| VObj (fit predict proba : bool) (cls : string). (* other objects: which
       methods they have, and the class asked for by isinstance *)

(** keyword arguments: get_params() *)
Definition opts := string -> pyv.

(** ** The Python operations the checks use *)

(** isinstance(v, numbers.Number), isinstance(v, numbers.Integral),
    isinstance(v, int) *)
Definition is_number (v : pyv) : bool :=
  match v with VBool _ | VInt _ _ | VFloat _ | VComplex => true | _ => false end.
Definition is_integral (v : pyv) : bool :=
  match v with VBool _ | VInt _ _ => true | _ => false end.
Definition is_int (v : pyv) : bool :=
  match v with VBool _ | VInt false _ => true | _ => false end.
Definition is_str (v : pyv) : bool := match v with VStr _ => true | _ => false end.
Definition is_bool (v : pyv) : bool := match v with VBool _ => true | _ => false end.
Definition is_dict (v : pyv) : bool := match v with VDict _ => true | _ => false end.
Definition is_none (v : pyv) : bool := match v with VNone => true | _ => false end.
(** isinstance(v, (np.ndarray, list)) *)
Definition is_arraylike (v : pyv) : bool :=
  match v with VArr _ | VList _ => true | _ => false end.

(** iteration and len() *)
Definition items (v : pyv) : list pyv :=
  match v with VList l | VTuple l | VArr l => l | _ => [] end.

(** [v in (s1, s2, ...)] for a tuple of strings *)
Fixpoint py_in (v : pyv) (names : list string) : bool :=
  match v with
  | VStr s => existsb (String.eqb s) names
  | VArr [x] => py_in x names
  | _ => false
  end.

Definition num_lt (a b : num) : bool :=
  match a, b with
  | NNaN, _ | _, NNaN => false
  | NNegInf, NNegInf | NPosInf, _ => false
  | NNegInf, _ => true
  | _, NNegInf => false
  | NFin _, NPosInf => true
  | NFin p, NFin q => negb (Qle_bool q p)
  end.
Definition num_le (a b : num) : bool :=
  match a, b with
  | NNaN, _ | _, NNaN => false
  | NNegInf, _ | _, NPosInf => true
  | _, NNegInf | NPosInf, _ => false
  | NFin p, NFin q => Qle_bool p q
  end.

(** operand of a comparison with a float: [inr e] is the exception raised *)
Fixpoint operand (v : pyv) : num + exn :=
  match v with
  | VBool b | VNpBool b => inl (NFin (if b then 1 else 0))
  | VInt _ z => inl (NFin (inject_Z z))
  | VFloat f => inl f
  | VArr [x] => operand x
  | VArr _ => inr ValueError
  | _ => inr TypeError
  end.

(** outcome of a check: [None] passes *)
Definition guard (b : bool) (e : exn) : option exn := if b then None else Some e.
Definition on_operand (v : pyv) (f : num -> option exn) : option exn :=
  match operand v with inl x => f x | inr e => Some e end.
Definition fin (q : Q) : num := NFin q.

(** the statements of a check run in order; the first that raises ends it *)
Fixpoint first_err (l : list (option exn)) : option exn :=
  match l with
  | [] => None
  | None :: r => first_err r
  | Some e :: _ => Some e
  end.

(** if v is not None: ... *)
Definition given (v : pyv) (c : option exn) : option exn :=
  if is_none v then None else c.

(** ** The idioms repeated in all the checks *)

(** binning.py:51-52 *)
Definition c_str (v : pyv) := guard (is_str v) TypeError.
(** binning.py:54-56 *)
Definition c_in (v : pyv) (names : list string) := guard (py_in v names) ValueError.
(** binning.py:240-241 *)
Definition c_bool (v : pyv) := guard (is_bool v) TypeError.
(** not isinstance(v, Integral) or v < k: binning.py:70-72 (k=2), 78-81 (k=1) *)
Definition c_int_ge (k : Z) (v : pyv) :=
  if is_integral v
  then on_operand v (fun x => guard (negb (num_lt x (fin (inject_Z k)))) ValueError)
  else Some ValueError.
(** not isinstance(v, Integral) or not 0 <= v <= m: binning.py:228-231 *)
Definition c_int_range (m : Z) (v : pyv) :=
  if is_integral v
  then on_operand v (fun x => guard (num_le (fin 0) x && num_le x (fin (inject_Z m))) ValueError)
  else Some ValueError.
(** not 0. < v <= 0.5, no isinstance: binning.py:74-76 *)
Definition c_half_open_raw (hi : Q) (v : pyv) :=
  on_operand v (fun x => guard (num_lt (fin 0) x && num_le x (fin hi)) ValueError).
(** not isinstance(v, Number) or not 0. < v <= hi: binning.py:93-97 *)
Definition c_half_open (hi : Q) (v : pyv) :=
  if is_number v then c_half_open_raw hi v else Some ValueError.
(** not isinstance(v, Number) or not 0. <= v <= 1.0: binning.py:161-164 *)
Definition c_unit (v : pyv) :=
  if is_number v
  then on_operand v (fun x => guard (num_le (fin 0) x && num_le x (fin 1)) ValueError)
  else Some ValueError.
(** not isinstance(v, Number) or v < lo: binning.py:176-177, 236-238 *)
Definition c_not_below (lo : Q) (v : pyv) :=
  if is_number v
  then on_operand v (fun x => guard (negb (num_lt x (fin lo))) ValueError)
  else Some ValueError.
(** if a is not None and b is not None: if a > b: raise  -- binning.py:88-91 *)
Definition c_le (a b : pyv) :=
  given a (given b (on_operand a (fun x => on_operand b (fun y =>
    guard (negb (num_lt y x)) ValueError)))).
(** special_codes, lists only: binning_sketch.py:214-216 *)
Definition c_arraylike (v : pyv) := guard (is_arraylike v) TypeError.
(** special_codes, dicts allowed: binning.py:218-225 *)
Definition c_special (v : pyv) :=
  first_err [guard (is_arraylike v || is_dict v) TypeError;
             match v with VDict [] => Some ValueError | _ => None end].
(** outlier_detector, outlier_params: binning.py:179-188 *)
Definition c_outlier (names : list string) (d p : pyv) :=
  given d (first_err [c_in d names; given p (guard (is_dict p) TypeError)]).
(** class_weight: binning.py:190-197 *)
Definition c_class_weight (v : pyv) :=
  match v with
  | VDict _ => None
  | VStr s => guard (String.eqb s "balanced") ValueError
  | _ => Some TypeError
  end.
(** user_splits, user_splits_fixed: binning.py:205-216 *)
Definition c_user_splits (s f : pyv) :=
  first_err
    [ given s (guard (is_arraylike s) TypeError);
      given f
        (if is_none s then Some ValueError
         else if negb (is_arraylike f) then Some TypeError
         else if negb (forallb is_bool (items f)) then Some ValueError
         else guard (Nat.eqb (List.length (items s)) (List.length (items f))) ValueError) ].

Definition trends : list string :=
  ["auto"; "auto_heuristic"; "auto_asc_desc"; "ascending"; "descending";
   "convex"; "concave"; "peak"; "valley"; "peak_heuristic"; "valley_heuristic"].
Definition divergences : list string := ["iv"; "js"; "hellinger"; "triangular"].
Definition half : Q := 1 # 2.

(** min_n_bins, max_n_bins, min_bin_size, max_bin_size: binning.py:78-107 *)
Definition c_bins_sizes (o : opts) : list (option exn) :=
  [ given (o "min_n_bins") (c_int_ge 1 (o "min_n_bins"));
    given (o "max_n_bins") (c_int_ge 1 (o "max_n_bins"));
    c_le (o "min_n_bins") (o "max_n_bins");
    given (o "min_bin_size") (c_half_open half (o "min_bin_size"));
    given (o "max_bin_size") (c_half_open 1 (o "max_bin_size"));
    c_le (o "min_bin_size") (o "max_bin_size") ].
(** binning.py:109-147 *)
Definition c_event_counts (o : opts) : list (option exn) :=
  [ given (o "min_bin_n_nonevent") (c_int_ge 1 (o "min_bin_n_nonevent"));
    given (o "max_bin_n_nonevent") (c_int_ge 1 (o "max_bin_n_nonevent"));
    c_le (o "min_bin_n_nonevent") (o "max_bin_n_nonevent");
    given (o "min_bin_n_event") (c_int_ge 1 (o "min_bin_n_event"));
    given (o "max_bin_n_event") (c_int_ge 1 (o "max_bin_n_event"));
    c_le (o "min_bin_n_event") (o "max_bin_n_event") ].
(** binning.py:166-174 *)
Definition c_pvalue (o : opts) : list (option exn) :=
  [ given (o "max_pvalue") (c_half_open 1 (o "max_pvalue"));
    c_in (o "max_pvalue_policy") ["all"; "consecutive"] ].
(** binning.py:199-203 *)
Definition c_cat (o : opts) : list (option exn) :=
  [ given (o "cat_cutoff") (c_half_open 1 (o "cat_cutoff"));
    given (o "cat_unknown")
      (guard (is_number (o "cat_unknown") || is_str (o "cat_unknown")) TypeError) ].
(** binning.py:227-241 *)
Definition c_digits (o : opts) : option exn :=
  given (o "split_digits") (c_int_range 8 (o "split_digits")).
Definition c_limit (o : opts) : option exn := c_not_below 0 (o "time_limit").

(** ** The checks *)

(** OptimalBinning: binning/binning.py:40-241 *)
Definition check_binary (o : opts) : option exn := first_err
  ([ c_str (o "name");
     c_in (o "dtype") ["categorical"; "numerical"];
     c_in (o "prebinning_method") ["cart"; "mdlp"; "quantile"; "uniform"];
     c_in (o "solver") ["cp"; "ls"; "mip"];
     c_in (o "divergence") divergences;
     c_int_ge 2 (o "max_n_prebins");
     c_half_open_raw half (o "min_prebin_size") ]
   ++ c_bins_sizes o ++ c_event_counts o ++
   [ given (o "monotonic_trend") (c_in (o "monotonic_trend") trends);
     c_unit (o "min_event_rate_diff") ]
   ++ c_pvalue o ++
   [ c_not_below 0 (o "gamma");
     c_outlier ["range"; "zscore"] (o "outlier_detector") (o "outlier_params");
     given (o "class_weight") (c_class_weight (o "class_weight")) ]
   ++ c_cat o ++
   [ c_user_splits (o "user_splits") (o "user_splits_fixed");
     given (o "special_codes") (c_special (o "special_codes"));
     c_digits o;
     c_in (o "mip_solver") ["bop"; "cbc"];
     c_limit o;
     c_bool (o "verbose") ])%list.

(** ContinuousOptimalBinning: binning/continuous_binning.py:33-177 *)
Definition check_continuous (o : opts) : option exn := first_err
  ([ c_str (o "name");
     c_in (o "dtype") ["categorical"; "numerical"];
     c_in (o "prebinning_method") ["cart"; "quantile"; "uniform"];
     c_int_ge 2 (o "max_n_prebins");
     c_half_open_raw half (o "min_prebin_size") ]
   ++ c_bins_sizes o ++
   [ given (o "monotonic_trend") (c_in (o "monotonic_trend") trends);
     c_not_below 0 (o "min_mean_diff") ]
   ++ c_pvalue o ++
   [ c_not_below 0 (o "gamma");
     c_outlier ["range"; "zscore"; "yquantile"] (o "outlier_detector") (o "outlier_params") ]
   ++ c_cat o ++
   [ c_user_splits (o "user_splits") (o "user_splits_fixed");
     given (o "special_codes") (c_special (o "special_codes"));
     c_digits o;
     c_limit o;
     c_bool (o "verbose") ])%list.

(** multiclass monotonic_trend: binning/multiclass_binning.py:91-111 *)
Definition c_trend_multi (v : pyv) : option exn :=
  match v with
  | VList l => first_err (map (fun t => guard (is_none t || py_in t trends) ValueError) l)
  | VStr _ => c_in v ["auto"; "auto_heuristic"; "auto_asc_desc"]
  | _ => Some ValueError
  end.
(** MulticlassOptimalBinning: binning/multiclass_binning.py:34-177 *)
Definition check_multiclass (o : opts) : option exn := first_err
  ([ c_str (o "name");
     c_in (o "prebinning_method") ["cart"; "quantile"; "uniform"];
     c_in (o "solver") ["cp"; "mip"];
     c_int_ge 2 (o "max_n_prebins");
     c_half_open_raw half (o "min_prebin_size") ]
   ++ c_bins_sizes o ++
   [ given (o "monotonic_trend") (c_trend_multi (o "monotonic_trend"));
     c_unit (o "min_event_rate_diff") ]
   ++ c_pvalue o ++
   [ c_outlier ["range"; "zscore"] (o "outlier_detector") (o "outlier_params");
     c_user_splits (o "user_splits") (o "user_splits_fixed");
     given (o "special_codes") (c_special (o "special_codes"));
     c_digits o;
     c_in (o "mip_solver") ["bop"; "cbc"];
     c_limit o;
     c_bool (o "verbose") ])%list.

(** OptimalBinningSketch: binning/distributed/binning_sketch.py:42-233, with
    pympler installed *)
Definition check_sketch (o : opts) : option exn := first_err
  ([ c_str (o "name");
     c_in (o "dtype") ["categorical"; "numerical"];
     c_in (o "sketch") ["gk"; "t-digest"];
     c_unit (o "eps");
     c_int_ge 1 (o "K");
     c_in (o "solver") ["cp"; "mip"];
     c_in (o "divergence") divergences;
     c_int_ge 2 (o "max_n_prebins") ]
   ++ c_bins_sizes o ++ c_event_counts o ++
   [ given (o "monotonic_trend") (c_in (o "monotonic_trend") trends);
     c_unit (o "min_event_rate_diff") ]
   ++ c_pvalue o ++
   [ c_not_below 0 (o "gamma") ]
   ++ c_cat o ++
   [ c_bool (o "cat_heuristic");
     given (o "special_codes") (c_arraylike (o "special_codes"));
     c_digits o;
     c_in (o "mip_solver") ["bop"; "cbc"];
     c_limit o;
     c_bool (o "verbose") ])%list.

(** not isinstance(eps, Number) and not 0 <= eps <= 1: bsketch.py:34-36 *)
Definition c_eps_bsketch (v : pyv) : option exn :=
  if is_number v then None
  else on_operand v (fun x => guard (num_le (fin 0) x && num_le x (fin 1)) ValueError).
(** BSketch: binning/distributed/bsketch.py:22-44, with tdigest installed *)
Definition check_bsketch (o : opts) : option exn := first_err
  [ c_in (o "sketch") ["gk"; "t-digest"];
    c_eps_bsketch (o "eps");
    c_int_ge 1 (o "K");
    given (o "special_codes") (c_arraylike (o "special_codes")) ].

(** SBOptimalBinning: binning/uncertainty/binning_scenarios.py:31-151 *)
Definition check_scenarios (o : opts) : option exn := first_err
  ([ c_str (o "name");
     c_in (o "prebinning_method") ["cart"; "quantile"; "uniform"];
     c_int_ge 2 (o "max_n_prebins");
     c_half_open_raw half (o "min_prebin_size") ]
   ++ c_bins_sizes o ++
   [ given (o "monotonic_trend")
       (c_in (o "monotonic_trend")
          ["ascending"; "descending"; "convex"; "concave"; "peak"; "valley"]);
     c_unit (o "min_event_rate_diff") ]
   ++ c_pvalue o ++
   [ given (o "class_weight") (c_class_weight (o "class_weight"));
     c_user_splits (o "user_splits") (o "user_splits_fixed");
     given (o "special_codes") (c_arraylike (o "special_codes"));
     c_digits o;
     c_limit o;
     c_bool (o "verbose") ])%list.

(** the axes of both 2D classes: binning_2d.py:46-89, continuous_binning_2d.py:38-77;
    [mid] stands for the options between the strategy and the prebins *)
Definition c_axes (mid : list (option exn)) (o : opts) : list (option exn) :=
  ([ c_str (o "name_x"); c_str (o "name_y");
     c_in (o "dtype_x") ["categorical"; "numerical"];
     c_in (o "dtype_y") ["categorical"; "numerical"];
     c_in (o "prebinning_method") ["cart"; "mdlp"; "quantile"; "uniform"];
     c_in (o "strategy") ["grid"; "cart"];
     c_in (o "solver") ["cp"; "mip"] ]
   ++ mid ++
   [ c_int_ge 2 (o "max_n_prebins_x"); c_int_ge 2 (o "max_n_prebins_y");
     c_half_open_raw half (o "min_prebin_size_x");
     c_half_open_raw half (o "min_prebin_size_y") ])%list.
Definition c_trends_2d (o : opts) : list (option exn) :=
  [ given (o "monotonic_trend_x") (c_in (o "monotonic_trend_x") ["ascending"; "descending"]);
    given (o "monotonic_trend_y") (c_in (o "monotonic_trend_y") ["ascending"; "descending"]) ].
Definition c_tail_2d (o : opts) : list (option exn) :=
  [ c_not_below 0 (o "gamma");
    given (o "special_codes_x") (c_arraylike (o "special_codes_x"));
    given (o "special_codes_y") (c_arraylike (o "special_codes_y"));
    c_digits o;
    given (o "n_jobs") (guard (is_integral (o "n_jobs")) ValueError);
    c_limit o;
    c_bool (o "verbose") ].
(** OptimalBinning2D: binning/multidimensional/binning_2d.py:34-207 *)
Definition check_2d (o : opts) : option exn := first_err
  (c_axes [c_in (o "divergence") divergences] o
   ++ c_bins_sizes o ++ c_event_counts o ++ c_trends_2d o ++
   [ c_unit (o "min_event_rate_diff_x"); c_unit (o "min_event_rate_diff_y") ]
   ++ c_tail_2d o)%list.
(** ContinuousOptimalBinning2D:
    binning/multidimensional/continuous_binning_2d.py:31-155 *)
Definition check_cont_2d (o : opts) : option exn := first_err
  (c_axes [] o ++ c_bins_sizes o ++ c_trends_2d o ++
   [ guard (is_number (o "min_mean_diff_x")) ValueError;
     guard (is_number (o "min_mean_diff_y")) ValueError ]
   ++ c_tail_2d o)%list.

(** the checks at the start of PreBinning.fit: binning/prebinning.py:80-93 *)
Definition check_prebinning (problem_type : string) (method : pyv) : option exn :=
  first_err
    [ c_in method ["uniform"; "quantile"; "cart"; "mdlp"];
      guard (existsb (String.eqb problem_type) ["classification"; "regression"]) ValueError;
      guard (negb (String.eqb problem_type "regression" && py_in method ["mdlp"])) ValueError ].

(** estimator of a piecewise binning: binning/piecewise/base.py:44-55 *)
Definition c_estimator (problem_type : string) (v : pyv) : option exn :=
  if String.eqb problem_type "classification"
  then guard (match v with VObj fit _ proba _ => fit && proba | _ => false end) TypeError
  else if String.eqb problem_type "regression"
  then guard (match v with VObj fit predict _ _ => fit && predict | _ => false end) TypeError
  else None.
(** OptimalPWBinning, ContinuousOptimalPWBinning: binning/piecewise/base.py:30-211 *)
Definition check_pw (problem_type : string) (o : opts) : option exn := first_err
  ([ c_str (o "name");
     given (o "estimator") (c_estimator problem_type (o "estimator"));
     c_in (o "objective") ["l1"; "l2"; "huber"; "quantile"];
     c_int_range 5 (o "degree");
     c_bool (o "continuous");
     c_bool (o "continuous_deriv");
     c_in (o "prebinning_method") ["cart"; "quantile"; "uniform"];
     c_half_open_raw half (o "min_prebin_size") ]
   ++ c_bins_sizes o ++
   [ given (o "monotonic_trend") (first_err
       [ c_in (o "monotonic_trend")
           ["auto"; "ascending"; "descending"; "convex"; "concave"; "peak"; "valley"];
         if py_in (o "monotonic_trend") ["convex"; "concave"]
         then on_operand (o "degree") (fun x => guard (negb (num_lt (fin 1) x)) ValueError)
         else None ]);
     given (o "n_subsamples") (c_int_ge 1 (o "n_subsamples")) ]
   ++ c_pvalue o ++
   [ c_outlier ["range"; "zscore"; "yquantile"] (o "outlier_detector") (o "outlier_params");
     c_user_splits (o "user_splits") (o "user_splits_fixed");
     given (o "special_codes")
       (guard (is_arraylike (o "special_codes") || is_dict (o "special_codes")) TypeError);
     c_digits o;
     c_in (o "solver") ["auto"; "ecos"; "osqp"; "direct"; "scs"; "highs"];
     c_not_below 1 (o "h_epsilon");
     (if is_number (o "quantile")
      then on_operand (o "quantile") (fun x => guard (num_lt (fin 0) x && num_lt x (fin 1)) ValueError)
      else Some ValueError);
     given (o "regularization") (c_in (o "regularization") ["l1"; "l2"]);
     c_not_below 0 (o "reg_l1");
     c_not_below 0 (o "reg_l2");
     given (o "random_state")
       (guard (is_int (o "random_state") ||
               match o "random_state" with VObj _ _ _ c => String.eqb c "RandomState" | _ => false end)
              TypeError);
     c_bool (o "verbose") ])%list.

(** defaults of OptimalBinning.__init__ (binning/binning.py:444-456),
    ContinuousOptimalBinning.__init__ (continuous_binning.py:324-332),
    MulticlassOptimalBinning.__init__ and OptimalBinningSketch.__init__, which
    agree on the keys they share *)
Definition vint (z : Z) : pyv := VInt false z.
Definition defaults (k : string) : pyv :=
  if String.eqb k "name" then VStr ""
  else if String.eqb k "dtype" then VStr "numerical"
  else if String.eqb k "prebinning_method" then VStr "cart"
  else if String.eqb k "solver" then VStr "cp"
  else if String.eqb k "divergence" then VStr "iv"
  else if String.eqb k "max_n_prebins" then vint 20
  else if String.eqb k "min_prebin_size" then VFloat (NFin (1 # 20))
  else if String.eqb k "monotonic_trend" then VStr "auto"
  else if String.eqb k "min_event_rate_diff" then vint 0
  else if String.eqb k "min_mean_diff" then vint 0
  else if String.eqb k "max_pvalue_policy" then VStr "consecutive"
  else if String.eqb k "gamma" then vint 0
  else if String.eqb k "mip_solver" then VStr "bop"
  else if String.eqb k "time_limit" then vint 100
  else if String.eqb k "verbose" then VBool false
  else if String.eqb k "sketch" then VStr "gk"
  else if String.eqb k "eps" then VFloat (NFin (1 # 10000))
  else if String.eqb k "K" then vint 25
  else if String.eqb k "cat_heuristic" then VBool false
  else VNone.

(** the options a constructor gets: [given_keys] taken from [o], the rest default *)
Definition pass (given_keys : list string) (o : opts) : opts :=
  fun k => if existsb (String.eqb k) given_keys then o k else defaults k.

(** piecewise: the options of the inner (Continuous)OptimalBinning,
    binning/piecewise/base.py:356-398 *)
Definition pw_inner (o : opts) : opts :=
  fun k =>
    if String.eqb k "monotonic_trend"
    then if py_in (o "monotonic_trend") ["concave"; "convex"] then VStr "auto"
         else o "monotonic_trend"
    else pass ["name"; "prebinning_method"; "max_n_prebins"; "min_prebin_size";
               "min_n_bins"; "max_n_bins"; "min_bin_size"; "max_bin_size";
               "max_pvalue"; "max_pvalue_policy"; "outlier_detector";
               "outlier_params"; "user_splits"; "user_splits_fixed";
               "split_digits"] o k.
(** the two checks a piecewise fit runs: piecewise/binning.py:313,
    piecewise/base.py:400 (the inner fit) *)
Definition fit_checks_pw (problem_type : string) (o : opts) : option exn :=
  first_err
    [ check_pw problem_type o;
      if String.eqb problem_type "regression" then check_continuous (pw_inner o)
      else check_binary (pw_inner o) ].

(** BinningProcess: binning/binning_process.py:201-308 *)
Definition check_process (o : opts) : option exn := first_err
  ([ guard (is_arraylike (o "variable_names")) TypeError;
     c_int_ge 2 (o "max_n_prebins");
     c_half_open_raw half (o "min_prebin_size") ]
   ++ c_bins_sizes o ++ c_pvalue o ++
   [ given (o "selection_criteria") (guard (is_dict (o "selection_criteria")) TypeError);
     given (o "fixed_variables") (guard (is_arraylike (o "fixed_variables")) TypeError);
     given (o "categorical_variables") (first_err
       [ guard (is_arraylike (o "categorical_variables")) TypeError;
         guard (forallb is_str (items (o "categorical_variables"))) TypeError ]);
     given (o "special_codes") (c_special (o "special_codes"));
     c_digits o;
     given (o "binning_fit_params") (guard (is_dict (o "binning_fit_params")) TypeError);
     given (o "binning_transform_params") (guard (is_dict (o "binning_transform_params")) TypeError);
     given (o "n_jobs") (guard (is_integral (o "n_jobs")) ValueError);
     c_bool (o "verbose") ])%list.

(** the options given to the binning of variable [name]:
    binning/binning_process.py:88-118 ([dtype] as guessed or declared) and
    binning/distributed/binning_process_sketch.py:322-331 (which hands over no
    min_prebin_size; the sketch has no such option) *)
Definition process_inner (name dtype : pyv) (o : opts) : opts :=
  fun k =>
    if String.eqb k "name" then name
    else if String.eqb k "dtype" then dtype
    else pass ["max_n_prebins"; "min_prebin_size"; "min_n_bins"; "max_n_bins";
               "min_bin_size"; "max_pvalue"; "max_pvalue_policy";
               "special_codes"; "split_digits"] o k.

(** BinningProcessSketch: binning/distributed/binning_process_sketch.py:32-115 *)
Definition check_process_sketch (o : opts) : option exn := first_err
  ([ guard (is_arraylike (o "variable_names")) TypeError;
     c_int_ge 2 (o "max_n_prebins") ]
   ++ c_bins_sizes o ++ c_pvalue o ++
   [ given (o "selection_criteria") (guard (is_dict (o "selection_criteria")) TypeError);
     given (o "categorical_variables") (first_err
       [ guard (is_arraylike (o "categorical_variables")) TypeError;
         guard (forallb is_str (items (o "categorical_variables"))) TypeError ]);
     given (o "special_codes") (c_arraylike (o "special_codes"));
     c_digits o;
     given (o "binning_fit_params") (guard (is_dict (o "binning_fit_params")) TypeError);
     given (o "binning_transform_params") (guard (is_dict (o "binning_transform_params")) TypeError);
     c_bool (o "verbose") ])%list.

(** ** Selection criteria: binning/binning_process.py:33-51, 160-198 *)
Definition metrics_of (target : string) : list string :=
  if String.eqb target "binary" then ["iv"; "js"; "gini"; "quality_score"]
  else if String.eqb target "multiclass" then ["js"; "quality_score"]
  else ["woe"; "quality_score"].
Definition metric_max (metric : string) : num :=
  if String.eqb metric "gini" || String.eqb metric "quality_score"
  then NFin 1 else NPosInf.
Definition c_criterion (metric : string) (kv : string * pyv) : option exn :=
  let (k, v) := kv in
  if String.eqb k "min" then on_operand v (fun x => guard (negb (num_lt x (fin 0))) ValueError)
  else if String.eqb k "max"
  then on_operand v (fun x => guard (negb (num_lt (metric_max metric) x)) ValueError)
  else if String.eqb k "strategy" then c_in v ["highest"; "lowest"]
  else if String.eqb k "top"
  then if is_integral v
       then on_operand v (fun x => guard (negb (num_lt x (fin 1))) ValueError)
       else on_operand v (fun x => guard (num_lt (fin 0) x && num_lt x (fin 1)) ValueError)
  else Some OtherError.  (* KeyError *)
Definition check_criteria (target : string) (l : list (string * pyv)) : option exn :=
  first_err
    (guard (forallb (fun p => existsb (String.eqb (fst p)) (metrics_of target)) l) ValueError
     :: map (fun p => match snd p with
                      | VDict info => first_err (map (c_criterion (fst p)) info)
                      | _ => Some TypeError
                      end) l).

(** ** Scorecard *)
(** scorecard/scorecard.py:30-69 *)
Definition check_scorecard (o : opts) : option exn := first_err
  [ guard (match o "binning_process" with VObj _ _ _ c => String.eqb c "BinningProcess" | _ => false end)
      TypeError;
    guard (match o "estimator" with VObj fit predict _ _ => fit && predict | _ => false end) TypeError;
    given (o "scaling_method") (first_err
      [ c_in (o "scaling_method") ["pdo_odds"; "min_max"];
        guard (negb (is_none (o "scaling_method_params"))) ValueError;
        guard (is_dict (o "scaling_method_params")) TypeError ]);
    c_bool (o "intercept_based");
    c_bool (o "reverse_scorecard");
    c_bool (o "rounding");
    match o "rounding" with
    | VBool true => guard (negb (is_none (o "scaling_method"))) ValueError
    | _ => None
    end;
    c_bool (o "verbose") ].

Fixpoint assoc (k : string) (l : list (string * pyv)) : option pyv :=
  match l with
  | [] => None
  | (k', v) :: r => if String.eqb k k' then Some v else assoc k r
  end.
(** set(params.keys()) == set(keys) *)
Definition same_keys (l : list (string * pyv)) (keys : list string) : bool :=
  forallb (fun p => existsb (String.eqb (fst p)) keys) l &&
  forallb (fun k => existsb (fun p => String.eqb k (fst p)) l) keys.
Definition param (l : list (string * pyv)) (k : string) : pyv :=
  match assoc k l with Some v => v | None => VNone end.
(** int(v) != v: scorecard.py:110-118; int(nan) raises ValueError, int(inf)
    OverflowError *)
Definition c_whole (v : pyv) : option exn :=
  on_operand v (fun x => match x with
    | NNaN => Some ValueError
    | NPosInf | NNegInf => Some OtherError
    | NFin q => guard (Z.eqb (Qnum q mod Zpos (Qden q)) 0) ValueError
    end).
(** scorecard/scorecard.py:72-119; [method] one of the two accepted strings *)
Definition check_scaling (pdo rounding : bool) (target : string)
    (l : list (string * pyv)) : option exn :=
  if pdo then first_err
    ([ guard (String.eqb target "binary") ValueError;
       guard (same_keys l ["pdo"; "odds"; "scorecard_points"]) ValueError ]
     ++ map (fun k => if is_number (param l k)
                      then on_operand (param l k) (fun x => guard (negb (num_le x (fin 0))) ValueError)
                      else Some ValueError)
            ["pdo"; "odds"; "scorecard_points"])
  else first_err
    ([ guard (same_keys l ["min"; "max"]) ValueError;
       guard (is_number (param l "min")) ValueError;
       guard (is_number (param l "max")) ValueError;
       on_operand (param l "min") (fun x => on_operand (param l "max") (fun y =>
         guard (negb (num_lt y x)) ValueError)) ]
     ++ if rounding then [c_whole (param l "min"); c_whole (param l "max")] else []).

(** ScorecardMonitoring: scorecard/monitoring.py:41-71 *)
Definition check_monitoring (o : opts) : option exn := first_err
  [ guard (match o "scorecard" with VObj _ _ _ c => String.eqb c "Scorecard" | _ => false end) TypeError;
    c_in (o "psi_method") ["uniform"; "quantile"; "cart"];
    given (o "psi_n_bins") (c_int_ge 1 (o "psi_n_bins"));
    given (o "psi_min_bin_size") (c_half_open half (o "psi_min_bin_size"));
    c_int_range 8 (o "show_digits");
    c_bool (o "verbose") ].

(** MDLP: binning/mdlp.py:18-31 *)
Definition check_mdlp (o : opts) : option exn := first_err
  [ c_int_ge 2 (o "min_samples_split");
    c_int_ge 1 (o "min_samples_leaf");
    c_int_ge 1 (o "max_candidates") ].

(** ** Arguments of transform and build *)
(** binning/transformations.py:63-90 *)
Definition check_metric_values (special missing : pyv) : option exn := first_err
  [ match special with
    | VStr s => guard (String.eqb s "empirical") ValueError
    | VDict l => first_err (map (fun p => guard (is_number (snd p)) ValueError) l)
    | _ => guard (is_number special) ValueError
    end;
    match missing with
    | VStr s => guard (String.eqb s "empirical") ValueError
    | _ => guard (is_number missing) ValueError
    end ].
(** binning/transformations.py:100-115 *)
Definition check_cat_unknown (metric : string) (v : pyv) : option exn :=
  given v (first_err
    [ guard (is_str v || negb (String.eqb metric "bins")) ValueError;
      guard (is_int v || negb (String.eqb metric "indices")) ValueError;
      guard (negb (existsb (String.eqb metric) ["woe"; "event_rate"; "mean"]) || is_number v)
        ValueError ]).
(** binning/binning_statistics.py:381-389 *)
Definition check_build (digits totals : pyv) : option exn := first_err
  [ c_int_range 8 digits; c_bool totals ].
