(** C79: every option is either inside its documented range or rejected. *)
From Coq Require Import ZArith QArith List String Bool Lia.
From Verif Require Import Model.Arr Model.Options Spec.OptionSpec Proofs.OptionP Proofs.OptionQ Proofs.OptionR.
Import ListNotations.
Open Scope string_scope.
Open Scope list_scope.

(** [c o = None]: the check passes. *)
Theorem C79_one_variable : forall o,
  (check_binary o = None <-> binary_options o) /\
  (check_continuous o = None <-> continuous_options o) /\
  (check_multiclass o = None <-> multiclass_options o) /\
  (check_scenarios o = None <-> scenario_options o).
Proof.
  intros o. split; [apply binary_ok|]. split; [apply continuous_ok|].
  split; [apply multiclass_ok | apply scenarios_ok].
Qed.
Print Assumptions C79_one_variable.

Theorem C79_two_variables : forall o,
  (check_2d o = None <-> options_2d o) /\ (check_cont_2d o = None <-> options_cont_2d o).
Proof. intros o. split; [apply two_d_ok | apply cont_2d_ok]. Qed.
Print Assumptions C79_two_variables.

(** The fit of a piecewise binning also fits a plain binning with the same
    options: this is where max_n_prebins and, for a binary target, the outlier
    detector are checked. *)
Theorem C79_piecewise : forall pt o,
  (check_pw pt o = None <-> pw_options pt o) /\
  (fit_checks_pw pt o = None <->
   pw_options pt o /\ int_at_least 2 (o "max_n_prebins") /\
   (pt <> "regression" -> outlier_options ["range"; "zscore"] o)).
Proof. intros pt o. split; [apply pw_ok | apply pw_fit_checks]. Qed.
Print Assumptions C79_piecewise.

Theorem C79_streams : forall o,
  (check_sketch o = None <-> sketch_options o) /\
  (sketch_options o -> check_bsketch o = None) /\
  (bsketch_options o -> check_bsketch o = None).
Proof.
  intros o. split; [apply sketch_ok|]. split; [apply sketch_bsketch|].
  intros (S & (q & R & _) & K & C). apply bsketch_ok.
  split; [exact S|]. split; [|split; assumption].
  left. apply a_number_iff. eapply real_number; eauto.
Qed.
Print Assumptions C79_streams.

(** Options a process accepts are accepted by every binning it builds. *)
Theorem C79_process : forall o,
  (check_process o = None <-> process_options o) /\
  (check_process_sketch o = None <-> process_sketch_options o) /\
  (forall name dtype, dtype = VStr "numerical" \/ dtype = VStr "categorical" ->
   check_process o = None ->
   check_binary (process_inner (VStr name) dtype o) = None /\
   check_continuous (process_inner (VStr name) dtype o) = None /\
   check_multiclass (process_inner (VStr name) dtype o) = None) /\
  (forall name dtype, dtype = VStr "numerical" \/ dtype = VStr "categorical" ->
   check_process_sketch o = None ->
   check_sketch (process_inner (VStr name) dtype o) = None).
Proof.
  intros o. split; [apply process_ok|]. split; [apply process_sketch_ok|]. split.
  - intros name dtype D P. apply process_ok in P.
    split; [now apply process_inner_binary|]. split; [now apply process_inner_continuous|].
    now apply process_inner_multiclass.
  - intros name dtype D P. apply process_sketch_ok in P. now apply process_sketch_inner.
Qed.
Print Assumptions C79_process.

(** [l]: the entries of the dict, no key twice. *)
Theorem C79_scorecard : forall o l rounding target, NoDup (map fst l) ->
  (check_scorecard o = None <-> scorecard_options o) /\
  (check_scaling true rounding target l = None <-> target = "binary" /\ pdo_params l) /\
  (check_scaling false rounding target l = None <-> min_max_params rounding l) /\
  (check_monitoring o = None <-> monitoring_options o) /\
  (check_mdlp o = None <-> mdlp_options o).
Proof.
  intros o l rounding target N. split; [apply scorecard_ok|].
  split; [now apply pdo_ok|]. split; [now apply min_max_ok|].
  split; [apply monitoring_ok | apply mdlp_ok].
Qed.
Print Assumptions C79_scorecard.

Theorem C79_criteria : forall target l,
  check_criteria target l = None <-> criteria target l.
Proof. apply criteria_ok. Qed.
Print Assumptions C79_criteria.

Theorem C79_arguments : forall special missing metric unknown digits totals,
  (check_metric_values special missing = None <-> metric_values special missing) /\
  (check_cat_unknown metric unknown = None <-> unknown_value metric unknown) /\
  (check_build digits totals = None <-> int_between 0 8 digits /\ a_bool totals).
Proof.
  intros. split; [apply metric_values_ok|]. split; [apply unknown_ok | apply build_ok].
Qed.
Print Assumptions C79_arguments.

(** Rejected options raise ValueError or TypeError, in every class. *)
Theorem C79_errors : forall c o e,
  In c [check_binary; check_continuous; check_multiclass; check_sketch; check_bsketch;
        check_scenarios; check_2d; check_cont_2d; check_pw "classification"; check_pw "regression";
        check_process; check_process_sketch; check_scorecard; check_monitoring; check_mdlp] ->
  c o = Some e -> e = ValueError \/ e = TypeError.
Proof. intros c o e I H. exact (usual_errors c o I e H). Qed.
Print Assumptions C79_errors.

(** ** Where documentation and checks part *)

Definition with_opt (o : opts) (k : string) (v : pyv) : opts :=
  fun k' => if String.eqb k' k then v else o k'.

(** nan is accepted as gamma, as time limit and as minimum difference of means *)
Theorem C79_nan_refuted :
  let nan := VFloat NNaN in
  check_binary (with_opt (with_opt defaults "gamma" nan) "time_limit" nan) = None /\
  check_continuous (with_opt (with_opt defaults "gamma" nan) "min_mean_diff" nan) = None /\
  forall rounding, check_scaling true rounding "binary"
    [("pdo", nan); ("odds", nan); ("scorecard_points", nan)] = None.
Proof. cbv zeta. split; [vm_compute; reflexivity|]. split; [vm_compute; reflexivity|]. reflexivity. Qed.
Print Assumptions C79_nan_refuted.

(** BSketch accepts every float as eps: the two conditions are joined by
    "and" *)
Theorem C79_bsketch_eps_refuted : forall f,
  check_bsketch (with_opt defaults "eps" (VFloat f)) = None.
Proof. intros f. vm_compute. reflexivity. Qed.
Print Assumptions C79_bsketch_eps_refuted.

(** user_splits_fixed is documented as array-like; an array of numpy booleans
    is rejected by every class, whatever the other options *)
Theorem C79_numpy_flags_refuted : forall o b l,
  o "user_splits_fixed" = VArr (VNpBool b :: l) ->
  check_binary o <> None /\ check_continuous o <> None /\ check_multiclass o <> None /\
  check_scenarios o <> None /\ (forall pt, check_pw pt o <> None).
Proof.
  intros o b l E.
  assert (~ user_split_options o) as U.
  { intros (_ & [H|(s & f & _ & HF & _ & B)]); [congruence|].
    rewrite E in HF. destruct HF as [HF|HF]; [discriminate|]. injection HF as <-.
    destruct (B (VNpBool b) (or_introl eq_refl)). discriminate. }
  split; [intros H; apply binary_ok in H; apply U; unfold binary_options in H; decompose [and] H; assumption|].
  split; [intros H; apply continuous_ok in H; apply U; unfold continuous_options in H; decompose [and] H; assumption|].
  split; [intros H; apply multiclass_ok in H; apply U; unfold multiclass_options in H; decompose [and] H; assumption|].
  split; [intros H; apply scenarios_ok in H; apply U; unfold scenario_options in H; decompose [and] H; assumption|].
  intros pt H. apply pw_ok in H. apply U. unfold pw_options in H. decompose [and] H. assumption.
Qed.
Print Assumptions C79_numpy_flags_refuted.

(** a piecewise binning does not look at max_n_prebins; the binning it fits
    after having replaced its results does *)
Theorem C79_pw_prebins_refuted : forall pt o v,
  check_pw pt o = None ->
  check_pw pt (with_opt o "max_n_prebins" v) = None /\
  (~ int_at_least 2 v -> fit_checks_pw pt (with_opt o "max_n_prebins" v) <> None).
Proof.
  intros pt o v H. split.
  - exact H.
  - intros N F. apply pw_fit_checks in F. destruct F as (_ & M & _). apply N, M.
Qed.
Print Assumptions C79_pw_prebins_refuted.

(** outlier_detector="yquantile" passes the options of OptimalPWBinning and
    makes every fit raise *)
Theorem C79_pw_yquantile_refuted : forall o,
  o "outlier_detector" = VStr "yquantile" ->
  fit_checks_pw "classification" o <> None.
Proof.
  intros o E F. apply pw_fit_checks in F. destruct F as (_ & _ & Q).
  destruct (Q ltac:(discriminate)) as [H|[H _]]; [congruence|].
  rewrite E in H. inversion H as [s S|]; subst. cbn in S. intuition discriminate.
Qed.
Print Assumptions C79_pw_yquantile_refuted.

(** ContinuousOptimalBinning2D documents and accepts prebinning_method="mdlp";
    its pre-binning then always raises *)
Theorem C79_cont_2d_mdlp_refuted : forall o,
  check_cont_2d o = None ->
  check_cont_2d (with_opt o "prebinning_method" (VStr "mdlp")) = None /\
  check_prebinning "regression" (VStr "mdlp") = Some ValueError.
Proof.
  intros o H. split; [|reflexivity].
  apply cont_2d_ok in H. apply cont_2d_ok.
  destruct H as (A & B). split; [|exact B].
  unfold axis_options in A |- *.
  change (named ["cart"; "mdlp"; "quantile"; "uniform"]
            (with_opt o "prebinning_method" (VStr "mdlp") "prebinning_method"))
    with (named ["cart"; "mdlp"; "quantile"; "uniform"] (VStr "mdlp")).
  decompose [and] A.
  do 4 (split; [assumption|]). split; [constructor; cbn; auto|].
  repeat match goal with |- _ /\ _ => split end; assumption.
Qed.
Print Assumptions C79_cont_2d_mdlp_refuted.

(** OptimalBinningSketch documents solver="ls" and rejects it *)
Theorem C79_sketch_ls_refuted : forall o, o "solver" = VStr "ls" -> check_sketch o <> None.
Proof.
  intros o E H. apply sketch_ok in H. unfold sketch_options in H. decompose [and] H.
  match goal with S : named _ (o "solver") |- _ => rewrite E in S; inversion S as [s I|]; subst end.
  cbn in I. intuition discriminate.
Qed.
Print Assumptions C79_sketch_ls_refuted.

(** Selection criteria nothing can meet are accepted; an unknown key raises
    KeyError *)
Theorem C79_criteria_refuted : forall lo hi,
  (0 <= lo)%Q ->
  check_criteria "binary" [("iv", VDict [("min", VFloat (NFin lo)); ("max", VFloat (NFin hi))])] = None /\
  forall k v, ~ In k ["min"; "max"; "strategy"; "top"] ->
    check_criteria "binary" [("iv", VDict [(k, v)])] = Some OtherError.
Proof.
  intros lo hi L. split.
  - apply criteria_ok. intros m v [[= <- <-]|[]]. split; [cbn; auto|].
    eexists. split; [reflexivity|]. intros k x [[= <- <-]|[[= <- <-]|[]]].
    + left. split; auto. exists (NFin lo). split; [constructor|]. right; right. eauto.
    + right; left. split; auto. exists (NFin hi). split; [constructor|]. right; right; right.
      exists hi. split; auto. cbn. intuition discriminate.
  - intros k v N. unfold check_criteria. cbn [forallb map fst snd existsb metrics_of].
    change (guard (existsb (String.eqb "iv") ["iv"; "js"; "gini"; "quality_score"] && true) ValueError) with (@None exn).
    cbn [first_err map]. unfold c_criterion.
    destruct (str_eqb_spec k "min") as [[E _]|[_ ->]]; [subst; cbn in N; tauto|].
    destruct (str_eqb_spec k "max") as [[E _]|[_ ->]]; [subst; cbn in N; tauto|].
    destruct (str_eqb_spec k "strategy") as [[E _]|[_ ->]]; [subst; cbn in N; tauto|].
    destruct (str_eqb_spec k "top") as [[E _]|[_ ->]]; [subst; cbn in N; tauto|].
    reflexivity.
Qed.
Print Assumptions C79_criteria_refuted.

(** cat_unknown given as a numpy integer is rejected by
    transform(metric="indices") *)
Theorem C79_numpy_int_refuted : forall z,
  check_cat_unknown "indices" (VInt true z) = Some ValueError /\
  check_cat_unknown "indices" (VInt false z) = None.
Proof. intros z. split; reflexivity. Qed.
Print Assumptions C79_numpy_int_refuted.

(** ** The cases are not empty *)
Definition o_rich : opts :=
  with_opt (with_opt (with_opt (with_opt (with_opt (with_opt defaults
    "min_n_bins" (vint 3)) "max_n_bins" (VInt true 3))
    "user_splits" (VArr [VFloat (NFin 1); VFloat (NFin 2)]))
    "user_splits_fixed" (VList [VBool true; VBool false]))
    "special_codes" (VDict [("low", vint (-9))]))
    "max_bin_size" (VFloat (NFin (3 # 4))).
Definition o_pw : opts :=
  with_opt (with_opt (with_opt (with_opt (with_opt (with_opt (with_opt (with_opt (with_opt (with_opt o_rich
    "objective" (VStr "l2")) "degree" (vint 1)) "continuous" (VBool true))
    "continuous_deriv" (VBool true)) "solver" (VStr "auto")) "h_epsilon" (VFloat (NFin (27 # 20))))
    "quantile" (VFloat (NFin (1 # 2)))) "reg_l1" (vint 1)) "reg_l2" (vint 1))
    "monotonic_trend" (VStr "concave").
Definition o_2d : opts :=
  with_opt (with_opt (with_opt (with_opt (with_opt (with_opt (with_opt (with_opt (with_opt (with_opt (with_opt (with_opt (with_opt
    defaults "name_x" (VStr "x")) "name_y" (VStr "y")) "dtype_x" (VStr "numerical"))
    "dtype_y" (VStr "categorical")) "strategy" (VStr "grid")) "max_n_prebins_x" (vint 5))
    "max_n_prebins_y" (vint 5)) "min_prebin_size_x" (VFloat (NFin (1 # 20))))
    "min_prebin_size_y" (VFloat (NFin (1 # 20)))) "min_mean_diff_x" (vint 0))
    "min_mean_diff_y" (vint 0)) "min_event_rate_diff_x" (vint 0)) "min_event_rate_diff_y" (vint 0).
Example C79_hyps_met :
  check_binary o_rich = None /\
  check_binary (with_opt o_rich "max_n_bins" (vint 2)) = Some ValueError /\
  check_binary (with_opt o_rich "user_splits_fixed" (VList [VBool true])) = Some ValueError /\
  check_binary (with_opt o_rich "min_prebin_size" (VStr "0.1")) = Some TypeError /\
  check_continuous o_rich = None /\
  check_multiclass (with_opt o_rich "monotonic_trend" (VList [VStr "peak"; VNone])) = None /\
  check_multiclass (with_opt o_rich "monotonic_trend" (VStr "peak")) = Some ValueError /\
  check_scenarios (with_opt (with_opt o_rich "special_codes" VNone) "monotonic_trend" VNone) = None /\
  check_sketch defaults = None /\
  check_pw "classification" o_pw = None /\ fit_checks_pw "classification" o_pw = None /\
  check_pw "classification" (with_opt o_pw "degree" (vint 2)) = Some ValueError /\
  check_2d o_2d = None /\ check_cont_2d o_2d = None /\
  check_process (with_opt o_rich "variable_names" (VList [VStr "a"])) = None /\
  check_scaling true true "binary"
    [("odds", vint 50); ("pdo", vint 20); ("scorecard_points", vint 600)] = None /\
  check_scaling false true "binary" [("max", VFloat (NFin 850)); ("min", vint 300)] = None /\
  check_scaling false true "binary" [("max", VFloat (NFin (1701 # 2))); ("min", vint 300)] = Some ValueError /\
  check_criteria "binary" [("iv", VDict [("min", vint 0); ("strategy", VStr "highest"); ("top", vint 3)])] = None /\
  NoDup (map (@fst string pyv) [("max", VFloat (NFin 850)); ("min", vint 300)]).
Proof.
  do 19 (split; [vm_compute; reflexivity|]).
  cbn. constructor; [cbn; intuition discriminate|]. constructor; [tauto | constructor].
Qed.
