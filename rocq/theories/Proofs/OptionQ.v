(** The checks of each class accept exactly the documented options. *)
From Coq Require Import ZArith QArith List String Bool Lia.
From Verif Require Import Model.Arr Model.Options Spec.OptionSpec Proofs.OptionP.
Import ListNotations.
Open Scope string_scope.
Open Scope list_scope.

(** both sides list the same conditions *)
Ltac same_conds :=
  split; intros;
  repeat match goal with H : _ /\ _ |- _ => destruct H end;
  repeat match goal with |- _ /\ _ => split end;
  first [assumption | exact I].

Lemma given_in : forall v names, given v (c_in v names) = None <-> optional (named names) v.
Proof. intros. apply opt_iff, c_in_ok. Qed.
Lemma given_cw : forall v, given v (c_class_weight v) = None <-> optional weights_option v.
Proof. intros. apply opt_iff, c_class_weight_ok. Qed.
Lemma given_special : forall v, given v (c_special v) = None <-> optional special_list_or_dict v.
Proof. intros. apply opt_iff, c_special_ok. Qed.
Lemma given_list : forall v, given v (c_arraylike v) = None <-> optional special_list v.
Proof. intros. apply opt_iff, c_arraylike_ok. Qed.
Lemma given_ge : forall k v, given v (c_int_ge k v) = None <-> optional (int_at_least k) v.
Proof. intros. apply opt_iff, c_int_ge_ok. Qed.
Lemma given_half : forall h v,
  given v (c_half_open h v) = None <-> optional (real_in (between_open_closed h)) v.
Proof. intros. apply opt_iff, c_half_open_ok. Qed.
Lemma given_dict : forall v, given v (guard (is_dict v) TypeError) = None <-> optional a_dict v.
Proof. intros. apply opt_iff. now rewrite guard_none, dict_iff. Qed.
Lemma given_arr : forall v, given v (guard (is_arraylike v) TypeError) = None <-> optional a_list v.
Proof. intros. apply opt_iff. now rewrite guard_none, arraylike_iff. Qed.
Lemma arr_iff : forall v, guard (is_arraylike v) TypeError = None <-> a_list v.
Proof. intros. now rewrite guard_none, arraylike_iff. Qed.
Lemma given_whole : forall v,
  given v (guard (is_integral v) ValueError) = None <-> optional (fun v => exists z, whole v z) v.
Proof. intros. apply opt_iff. now rewrite guard_none, whole_integral. Qed.
Lemma number_guard : forall v e, guard (is_number v) e = None <-> a_number v.
Proof. intros. now rewrite guard_none, a_number_iff. Qed.

Lemma binary_ok : forall o, check_binary o = None <-> binary_options o.
Proof.
  intros o. unfold check_binary, binary_options, prebin_options.
  rewrite !first_err_app, !first_err_cons, !first_err_nil.
  rewrite bins_sizes_ok, event_counts_ok, pvalue_ok, cat_ok, c_user_splits_ok, c_outlier_ok.
  rewrite c_str_ok, dtype_ok, c_bool_ok, digits_ok, limit_ok, trend_ok, c_unit_ok,
    c_int_ge_ok, c_half_open_raw_ok, c_not_below_ok, given_cw, given_special.
  rewrite (c_in_perm _ ["cp"; "ls"; "mip"] ["cp"; "mip"; "ls"]) by (intros s; cbn; tauto).
  rewrite !c_in_ok. unfold all_divergences, divergences, one_half, half. same_conds.
Qed.

Lemma continuous_ok : forall o, check_continuous o = None <-> continuous_options o.
Proof.
  intros o. unfold check_continuous, continuous_options, prebin_options.
  rewrite !first_err_app, !first_err_cons, !first_err_nil.
  rewrite bins_sizes_ok, pvalue_ok, cat_ok, c_user_splits_ok, c_outlier_ok.
  rewrite c_str_ok, dtype_ok, c_bool_ok, digits_ok, limit_ok, trend_ok,
    c_int_ge_ok, c_half_open_raw_ok, !c_not_below_ok, given_special.
  rewrite !c_in_ok. unfold one_half, half. same_conds.
Qed.

Lemma trends_perm : forall v, named trends v <-> named all_trends v.
Proof.
  intros v. split; apply named_iff; intros s; unfold trends, all_trends; cbn; tauto.
Qed.

Lemma c_trend_multi_ok : forall v, c_trend_multi v = None <-> class_trends v.
Proof.
  intros v. unfold class_trends.
  destruct v as [|b|np z|f| |b|s|l|l|l|l|a b c s]; cbn [c_trend_multi];
    try (split; [discriminate | intros [(s' & H & _)|(l' & H & _)]; discriminate]).
  - rewrite c_in_ok. split.
    + intros H. inversion H; subst. left. eauto.
    + intros [(s' & [= <-] & H)|(l' & H & _)]; [now constructor | discriminate].
  - rewrite first_err_none, Forall_map, Forall_forall. split.
    + intros H. right. exists l. split; auto. intros t T.
      specialize (H t T). cbv beta in H. rewrite guard_none, orb_true_iff, py_in_ok, trends_perm in H.
      destruct H as [H|H]; [left; now destruct t | now right].
    + intros [(s' & H & _)|(l' & [= <-] & H)]; [discriminate|].
      intros t T. rewrite guard_none, orb_true_iff, py_in_ok, trends_perm.
      destruct (H t T) as [->|K]; [now left | now right].
Qed.

Lemma multiclass_ok : forall o, check_multiclass o = None <-> multiclass_options o.
Proof.
  intros o. unfold check_multiclass, multiclass_options, prebin_options.
  rewrite !first_err_app, !first_err_cons, !first_err_nil.
  rewrite bins_sizes_ok, pvalue_ok, c_user_splits_ok, c_outlier_ok.
  rewrite c_str_ok, c_bool_ok, digits_ok, limit_ok, c_unit_ok,
    c_int_ge_ok, c_half_open_raw_ok, given_special.
  rewrite (opt_iff class_trends _ _ (c_trend_multi_ok _)).
  rewrite !c_in_ok. unfold one_half, half. same_conds.
Qed.

Lemma sketch_ok : forall o, check_sketch o = None <-> sketch_options o.
Proof.
  intros o. unfold check_sketch, sketch_options.
  rewrite !first_err_app, !first_err_cons, !first_err_nil.
  rewrite bins_sizes_ok, event_counts_ok, pvalue_ok, cat_ok.
  rewrite c_str_ok, dtype_ok, !c_bool_ok, digits_ok, limit_ok, trend_ok, !c_unit_ok,
    !c_int_ge_ok, c_not_below_ok, given_list.
  rewrite !c_in_ok. unfold all_divergences, divergences. same_conds.
Qed.

Lemma scenarios_ok : forall o, check_scenarios o = None <-> scenario_options o.
Proof.
  intros o. unfold check_scenarios, scenario_options, prebin_options.
  rewrite !first_err_app, !first_err_cons, !first_err_nil.
  rewrite bins_sizes_ok, pvalue_ok, c_user_splits_ok.
  rewrite c_str_ok, c_bool_ok, digits_ok, limit_ok, c_unit_ok,
    c_int_ge_ok, c_half_open_raw_ok, given_list, given_cw.
  rewrite (opt_iff (named ["ascending"; "descending"; "concave"; "convex"; "peak"; "valley"])
             (o "monotonic_trend")) by (apply c_in_perm; intros s; cbn; tauto).
  rewrite !c_in_ok. unfold one_half, half. same_conds.
Qed.

Lemma two_d_ok : forall o, check_2d o = None <-> options_2d o.
Proof.
  intros o. unfold check_2d, options_2d, axis_options, c_axes, c_trends_2d, c_tail_2d.
  rewrite !first_err_app, !first_err_cons, !first_err_nil.
  rewrite bins_sizes_ok, event_counts_ok.
  rewrite !c_str_ok, !dtype_ok, c_bool_ok, digits_ok, limit_ok, !c_unit_ok,
    !c_int_ge_ok, !c_half_open_raw_ok, c_not_below_ok, !given_list, !given_in, given_whole.
  rewrite !c_in_ok. unfold all_divergences, divergences, one_half, half. same_conds.
Qed.

Lemma cont_2d_ok : forall o, check_cont_2d o = None <-> options_cont_2d o.
Proof.
  intros o. unfold check_cont_2d, options_cont_2d, axis_options, c_axes, c_trends_2d, c_tail_2d.
  rewrite !first_err_app, !first_err_cons, !first_err_nil.
  rewrite bins_sizes_ok.
  rewrite !c_str_ok, !dtype_ok, c_bool_ok, digits_ok, limit_ok,
    !c_int_ge_ok, !c_half_open_raw_ok, c_not_below_ok, !given_list, !given_in, given_whole, !number_guard.
  rewrite !c_in_ok. unfold one_half, half. same_conds.
Qed.

(** ** Piecewise binning *)
Lemma c_estimator_ok : forall pt v, c_estimator pt v = None <-> estimator_option pt v.
Proof.
  intros pt v. unfold c_estimator, estimator_option.
  destruct (String.eqb pt "classification") eqn:C.
  - apply String.eqb_eq in C. subst pt. rewrite guard_none. split.
    + intros H. split; [|discriminate]. intros _. destruct v; try discriminate.
      apply andb_true_iff in H. destruct H as [-> ->]. eauto.
    + intros [H _]. destruct (H eq_refl) as (p & c & ->). reflexivity.
  - destruct (String.eqb pt "regression") eqn:R.
    + apply String.eqb_eq in R. subst pt. rewrite guard_none. split.
      * intros H. split; [discriminate|]. intros _. destruct v; try discriminate.
        apply andb_true_iff in H. destruct H as [-> ->]. eauto.
      * intros [_ H]. destruct (H eq_refl) as (p & c & ->). reflexivity.
    + split; [|reflexivity]. intros _.
      apply String.eqb_neq in C. apply String.eqb_neq in R. split; contradiction.
Qed.

Lemma open_unit_ok : forall v,
  (if is_number v
   then on_operand v (fun x => guard (num_lt (fin 0) x && num_lt x (fin 1)) ValueError)
   else Some ValueError) = None <-> real_in open_unit v.
Proof.
  intros v. destruct (is_number v) eqn:N.
  - rewrite (number_check v (fun x => num_lt (fin 0) x && num_lt x (fin 1))
               open_unit false false N); try reflexivity.
    + intuition discriminate.
    + intros q. cbn. rewrite andb_true_iff, !Qlt_negb. reflexivity.
  - split; [discriminate|]. intros (q & R & _). apply real_number in R. congruence.
Qed.

Lemma given_first : forall v l, given v (first_err l) = None <-> v = VNone \/ first_err l = None.
Proof. intros. apply given_none. Qed.

Lemma pw_trend_ok : forall t d names,
  int_between 0 5 d ->
  (given t (first_err [ c_in t names;
       if py_in t ["convex"; "concave"]
       then on_operand d (fun x => guard (negb (num_lt (fin 1) x)) ValueError)
       else None ]) = None <->
   optional (named names) t /\ (named ["concave"; "convex"] t -> int_between 0 1 d)).
Proof.
  intros t d names (z & W & Z).
  assert (py_in t ["convex"; "concave"] = true <-> named ["concave"; "convex"] t) as P.
  { rewrite py_in_ok. split; apply named_iff; intros s; cbn; tauto. }
  assert (on_operand d (fun x => guard (negb (num_lt (fin 1) x)) ValueError) = None
          <-> int_between 0 1 d) as D.
  { unfold on_operand. rewrite (whole_operand d z W), guard_none. cbn.
    change 1%Q with (inject_Z 1).
    rewrite Qle_negb_negb, Qle_inject. unfold int_between. split.
    - intros L. exists z. split; [exact W | lia].
    - intros (y & Y & H). rewrite (whole_fun _ _ _ W Y). lia. }
  rewrite given_none, !first_err_cons, first_err_nil, c_in_ok. unfold optional.
  destruct (py_in t ["convex"; "concave"]) eqn:E.
  - rewrite D. split.
    + intros [->|(N & K & _)]; [discriminate|]. split; [now right | auto].
    + intros [[->|N] K]; [discriminate|]. right. split; auto. split; auto. apply K, P. reflexivity.
  - split.
    + intros H. split; [tauto|]. intros K. apply P in K. discriminate.
    + tauto.
Qed.

Lemma random_state_ok : forall v,
  given v (guard (is_int v || match v with VObj _ _ _ c => String.eqb c "RandomState" | _ => false end)
             TypeError) = None <->
  optional (fun v => (exists b, v = VBool b) \/ (exists z, v = VInt false z) \/
                     exists a b c, v = VObj a b c "RandomState") v.
Proof.
  intros v. apply opt_iff. rewrite guard_none, orb_true_iff. split.
  - intros [H|H].
    + destruct v as [|b|[] z| | | | | | | | |]; try discriminate; eauto.
    + destruct v as [| | | | | | | | | | |a b c s]; try discriminate.
      apply String.eqb_eq in H. subst. right; right. eauto.
  - intros [[b ->]|[[z ->]|(a & b & c & ->)]]; [now left | now left | now right].
Qed.

Lemma pw_ok : forall pt o, check_pw pt o = None <-> pw_options pt o.
Proof.
  intros pt o. unfold check_pw, pw_options.
  rewrite !first_err_app, !first_err_cons, !first_err_nil.
  rewrite bins_sizes_ok, pvalue_ok, c_user_splits_ok, c_outlier_ok.
  rewrite open_unit_ok, random_state_ok.
  rewrite (opt_iff _ _ _ (c_estimator_ok pt (o "estimator"))).
  rewrite (opt_iff (fun v => a_list v \/ a_dict v) (o "special_codes"))
    by (rewrite guard_none, orb_true_iff, arraylike_iff, dict_iff; reflexivity).
  rewrite c_str_ok, !c_bool_ok, digits_ok, c_int_range_ok, given_ge,
    !c_half_open_raw_ok, !c_not_below_ok, given_in.
  rewrite (c_in_ok (o "objective")), (c_in_ok (o "prebinning_method")), (c_in_ok (o "solver")).
  assert (forall n, (forall s, In s n <-> In s ["auto"; "ascending"; "descending"; "concave"; "convex"; "peak"; "valley"]) ->
     int_between 0 5 (o "degree") ->
     (given (o "monotonic_trend") (first_err
       [ c_in (o "monotonic_trend") n;
         if py_in (o "monotonic_trend") ["convex"; "concave"]
         then on_operand (o "degree") (fun x => guard (negb (num_lt (fin 1) x)) ValueError)
         else None ]) = None <->
      optional (named ["auto"; "ascending"; "descending"; "concave"; "convex"; "peak"; "valley"]) (o "monotonic_trend")
      /\ (named ["concave"; "convex"] (o "monotonic_trend") -> int_between 0 1 (o "degree")))) as T.
  { intros n E D. rewrite (pw_trend_ok _ _ n D). unfold optional.
    assert (named n (o "monotonic_trend") <->
            named ["auto"; "ascending"; "descending"; "concave"; "convex"; "peak"; "valley"] (o "monotonic_trend"))
      as Q by (split; apply named_iff; [exact E | symmetry; apply E]).
    rewrite Q. reflexivity. }
  specialize (T ["auto"; "ascending"; "descending"; "convex"; "concave"; "peak"; "valley"]).
  assert (forall s, In s ["auto"; "ascending"; "descending"; "convex"; "concave"; "peak"; "valley"] <->
                    In s ["auto"; "ascending"; "descending"; "concave"; "convex"; "peak"; "valley"]) as E
    by (intros s; cbn; tauto).
  specialize (T E). clear E. unfold one_half, half.
  match type of T with _ -> (?a = None <-> _) => set (tr := a) in * end.
  split; intros H; repeat match goal with H : _ /\ _ |- _ => destruct H end.
  - assert (int_between 0 5 (o "degree")) as D by assumption.
    destruct (proj1 (T D)) as [T1 T2]; [assumption|].
    repeat match goal with |- _ /\ _ => split end; first [assumption | exact I].
  - assert (int_between 0 5 (o "degree")) as D by assumption.
    assert (tr = None) by (apply (T D); split; assumption).
    repeat match goal with |- _ /\ _ => split end; first [assumption | exact I].
Qed.

(** ** Processes, scorecards *)
Lemma names_ok : forall v,
  given v (first_err [ guard (is_arraylike v) TypeError;
                       guard (forallb is_str (items v)) TypeError ]) = None
  <-> optional names_list v.
Proof.
  intros v. apply opt_iff. rewrite !first_err_cons, first_err_nil, !guard_none, arraylike_iff.
  unfold names_list. split.
  - intros ((l & L) & S & _). exists l. split; [exact L|].
    rewrite (list_of_items _ _ L), forallb_forall in S. intros x X. now apply str_iff, S.
  - intros (l & L & S). split; [exists l; exact L|]. split; [|exact I].
    rewrite (list_of_items _ _ L). apply forallb_forall. intros x X. now apply str_iff, S.
Qed.

Lemma process_ok : forall o, check_process o = None <-> process_options o.
Proof.
  intros o. unfold check_process, process_options, prebin_options.
  rewrite !first_err_app, !first_err_cons, !first_err_nil.
  rewrite bins_sizes_ok, pvalue_ok, names_ok, !given_dict, given_arr, given_special, given_whole,
    digits_ok, c_bool_ok, c_int_ge_ok, c_half_open_raw_ok, arr_iff.
  unfold one_half, half. same_conds.
Qed.

Lemma process_sketch_ok : forall o, check_process_sketch o = None <-> process_sketch_options o.
Proof.
  intros o. unfold check_process_sketch, process_sketch_options.
  rewrite !first_err_app, !first_err_cons, !first_err_nil.
  rewrite bins_sizes_ok, pvalue_ok, names_ok, !given_dict, given_list,
    digits_ok, c_bool_ok, c_int_ge_ok, arr_iff.
  same_conds.
Qed.

Lemma scorecard_ok : forall o, check_scorecard o = None <-> scorecard_options o.
Proof.
  intros o. unfold check_scorecard, scorecard_options.
  rewrite !first_err_cons, !first_err_nil, !c_bool_ok.
  assert (guard (match o "binning_process" with VObj _ _ _ c => String.eqb c "BinningProcess" | _ => false end)
      TypeError = None <-> exists a b c, o "binning_process" = VObj a b c "BinningProcess") as B.
  { rewrite guard_none. split.
    - destruct (o "binning_process"); try discriminate. intros H. apply String.eqb_eq in H.
      subst. eauto.
    - intros (a & b & c & ->). reflexivity. }
  assert (guard (match o "estimator" with VObj fit predict _ _ => fit && predict | _ => false end) TypeError
      = None <-> exists p c, o "estimator" = VObj true true p c) as E.
  { rewrite guard_none. split.
    - destruct (o "estimator"); try discriminate. intros H. apply andb_true_iff in H.
      destruct H as [-> ->]. eauto.
    - intros (a & b & ->). reflexivity. }
  assert (given (o "scaling_method") (first_err
      [ c_in (o "scaling_method") ["pdo_odds"; "min_max"];
        guard (negb (is_none (o "scaling_method_params"))) ValueError;
        guard (is_dict (o "scaling_method_params")) TypeError ]) = None <->
      (o "scaling_method" = VNone \/
       named ["pdo_odds"; "min_max"] (o "scaling_method") /\ a_dict (o "scaling_method_params"))) as S.
  { rewrite given_none, !first_err_cons, first_err_nil, c_in_ok, !guard_none, dict_iff.
    unfold a_dict. split; [tauto|].
    intros [H|(N & l & D)]; [now left|]. right. rewrite D. cbn. intuition eauto. }
  assert (match o "rounding" with
    | VBool true => guard (negb (is_none (o "scaling_method"))) ValueError
    | _ => None end = None <-> (o "rounding" = VBool true -> o "scaling_method" <> VNone)) as R.
  { destruct (o "rounding") as [|[]| | | | | | | | | |]; try (split; [discriminate | reflexivity]).
    rewrite guard_none. destruct (o "scaling_method"); cbn; split; intros H; auto; try discriminate.
    now specialize (H eq_refl). }
  rewrite B, E, S, R. tauto.
Qed.

Lemma monitoring_ok : forall o, check_monitoring o = None <-> monitoring_options o.
Proof.
  intros o. unfold check_monitoring, monitoring_options.
  rewrite !first_err_cons, !first_err_nil, !c_bool_ok, given_ge, given_half, c_int_range_ok, c_in_ok.
  assert (guard (match o "scorecard" with VObj _ _ _ c => String.eqb c "Scorecard" | _ => false end)
      TypeError = None <-> exists a b c, o "scorecard" = VObj a b c "Scorecard") as B.
  { rewrite guard_none. split.
    - destruct (o "scorecard"); try discriminate. intros H. apply String.eqb_eq in H.
      subst. eauto.
    - intros (a & b & c & ->). reflexivity. }
  rewrite B. unfold one_half, half. tauto.
Qed.

Lemma mdlp_ok : forall o, check_mdlp o = None <-> mdlp_options o.
Proof.
  intros o. unfold check_mdlp, mdlp_options.
  rewrite !first_err_cons, !first_err_nil, !c_int_ge_ok. tauto.
Qed.

(** BSketch looks at the range of eps only when eps is not a number *)
Lemma bsketch_ok : forall o,
  check_bsketch o = None <->
  named ["gk"; "t-digest"] (o "sketch") /\
  (a_number (o "eps") \/
   exists v, o "eps" = VArr [v] /\ loosely unit_interval v \/
   exists b, o "eps" = VNpBool b) /\
  int_at_least 1 (o "K") /\ optional special_list (o "special_codes").
Proof.
  intros o. unfold check_bsketch.
  rewrite !first_err_cons, !first_err_nil, c_int_ge_ok, given_list, c_in_ok.
  assert (c_eps_bsketch (o "eps") = None <->
    (a_number (o "eps") \/
     exists v, o "eps" = VArr [v] /\ loosely unit_interval v \/
     exists b, o "eps" = VNpBool b)) as E.
  { unfold c_eps_bsketch. destruct (is_number (o "eps")) eqn:N.
    - apply a_number_iff in N. tauto.
    - assert (~ a_number (o "eps")) as M.
      { intros A. apply a_number_iff in A. congruence. }
      assert (on_operand (o "eps") (fun x => guard (num_le (fin 0) x && num_le x (fin 1)) ValueError)
              = None <-> loosely unit_interval (o "eps")) as L.
      { rewrite on_operand_none, <- compares_loosely. split.
        - intros (x & O & G). apply guard_none in G. destruct x as [| | |q]; try discriminate.
          exists q. split; [now apply operand_compares|].
          cbn in G. now rewrite andb_true_iff, !Qle_bool_iff in G.
        - intros (q & C & H). exists (NFin q). split; [now apply operand_compares|].
          apply guard_none. cbn. now rewrite andb_true_iff, !Qle_bool_iff. }
      rewrite L. split.
      + intros H. right. inversion H as [v (q & R & _) V|b P V|v P V]; subst.
        * rewrite (real_number _ _ R) in N. discriminate.
        * exists VNone. right. eauto.
        * exists v. left. split; auto.
      + intros [A|(v & [[-> P]|[b ->]])]; [contradiction | now apply loose_arr |].
        apply loose_npbool. destruct b; split; discriminate. }
  rewrite E. tauto.
Qed.

(** ** Selection criteria *)
Lemma metrics_ok : forall t m, existsb (String.eqb m) (metrics_of t) = true <-> target_metrics t m.
Proof.
  intros t m. rewrite existsb_str. unfold metrics_of, target_metrics.
  destruct (String.eqb t "binary") eqn:B.
  { apply String.eqb_eq in B. subst. reflexivity. }
  destruct (String.eqb t "multiclass") eqn:M.
  { apply String.eqb_eq in M. subst. reflexivity. }
  apply String.eqb_neq in B. apply String.eqb_neq in M.
  assert (target_metrics t m <-> In m ["woe"; "quality_score"]) as K; [|now rewrite <- K].
  unfold target_metrics.
  repeat match goal with
  | |- context [match ?x with _ => _ end] => is_var x; destruct x; try reflexivity
  end; try contradiction; exfalso; congruence.
Qed.
