(** Scorecards (C35-C39). Theorems are about [fit_scorecard] (the Points column and [intercept_] after fit) and [score]. *)
From Coq Require Import List ZArith Bool Reals Lra Lia Sorting.
From Verif Require Import Model.Arr Model.Core Model.Cat Model.Metrics Model.Scorecard
  Spec.CoreSpec Spec.CatSpec Spec.ScoreSpec Proofs.MetricsP Proofs.CatP Proofs.ScoreP Proofs.ScoreFinal.
Import ListNotations.
Open Scope R_scope.

(** ** C39: the score is the intercept plus the points displayed for the rows of the sample *)

(** For every scaling, rounding, orientation and treatment of special / missing, numerical and categorical variables:
    a sample that falls in rows [ks] scores [intercept_] plus the displayed points of these rows. *)
Theorem C39_score_is_sum_of_points s rev ib rounding mip i0 ms mm ic vars xs ks :
  (forall t p, mip t = Some p -> exists minb maxb, mip_feasible t p minb maxb) ->
  Forall svar_ok vars -> sample_rows vars xs ks ->
  exists x, Score_of (fit_scorecard s rev ib rounding mip i0 ms mm ic vars) ks x /\
    score (fit_scorecard s rev ib rounding mip i0 ms mm ic vars) vars xs = Ok x.
Proof. apply fit_score. Qed.
Print Assumptions C39_score_is_sum_of_points.

(** Without scaling and rounding the score is the estimator's linear predictor without its intercept. *)
Theorem C39_unscaled_score_is_linear_predictor rev ib mip ms mm ic vars xs ks : vars <> [] ->
  Forall svar_ok vars -> sample_rows vars xs ks ->
  exists l, linear_sum ms mm vars xs = Ok l /\
    score (fit_scorecard NoScaling rev ib false mip 0 ms mm ic vars) vars xs = Ok l.
Proof. intros Hn Hv Hr. exact (fit_line NoScaling rev ib mip ms mm ic vars xs ks Hn Hv Hr). Qed.
Print Assumptions C39_unscaled_score_is_linear_predictor.

(** A category not seen in training belongs to no row; its score uses the points of the Missing row (numpy index -1). *)
Theorem C39_unknown_category_gets_missing_points_refuted v bins c l p : sv_bins v = Catg bins ->
  ~ In (XNum c) (flat_codes (sv_sp v)) -> (forall j, ~ listed bins j c) ->
  nth_error l (length l - 1) = Some p -> (0 < length l)%nat ->
  (forall k, ~ table_row v (XNum c) k) /\ score ([l], 0) [v] [XNum c] = Ok p.
Proof.
  intros Hb Hc Hl Hp Hpos. split.
  - intros k H. unfold table_row in H. rewrite Hb in H. destruct H as [(i & Hi & _)|(_ & H)]; [|now apply (Hl k)].
    apply Hc. clear - Hi. destruct (sv_sp v) as [|cs|d]; cbn in Hi |- *; [easy|tauto|].
    destruct Hi as (kv & E & Hx). apply in_concat. exists (snd kv). split; [|exact Hx].
    apply in_map. now apply nth_error_In in E.
  - unfold score. cbn [score_sum fst snd]. unfold sv_index. rewrite Hb. unfold transform_indices_cat.
    rewrite cat_transform_unknown by assumption. cbn [rbind]. unfold np_get. cbn [Z.ltb Z.compare].
    destruct (Z.ltb_spec (-1 + Z.of_nat (length l)) 0); [lia|].
    replace (Z.to_nat (-1 + Z.of_nat (length l))) with (length l - 1)%nat by lia. rewrite Hp. cbn [rbind].
    f_equal. lra.
Qed.
Print Assumptions C39_unknown_category_gets_missing_points_refuted.
(** ... so with metric_missing="empirical" an unknown category does not score as the model predicts: here the linear
    predictor is 0 (WoE 0 for unknown categories) and the score is 2. *)
Definition ex_cat : svar := mkV (Catg [[1%Z]; [2%Z]]) SpNone [-1; 1; 0; 2] 0 1.
Theorem C39_unknown_category_score_not_linear_refuted :
  linear_sum Empirical Empirical [ex_cat] [XNum 9] = Ok (1 * 0 + 0) /\
  score (fit_scorecard NoScaling false false false (fun _ => None) 0 Empirical Empirical 0 [ex_cat]) [ex_cat] [XNum 9]
  = Ok (2 * 1 + 0 + 0).
Proof. split; reflexivity. Qed.
Print Assumptions C39_unknown_category_score_not_linear_refuted.

(** Refitting an object with intercept_based=False after a fit with intercept_based=True keeps the old [intercept_]: every
    score is off by it. *)
Theorem C39_stale_intercept_refuted s rev rounding mip i0 ms mm ic vars ks x :
  Score_of (fit_scorecard s rev false rounding mip 0 ms mm ic vars) ks x <->
  Score_of (fit_scorecard s rev false rounding mip i0 ms mm ic vars) ks (x + i0).
Proof.
  assert (E : forall j, fit_scorecard s rev false rounding mip j ms mm ic vars =
    (fst (fit_scorecard s rev false rounding mip 0 ms mm ic vars), j)).
  { intros j. unfold fit_scorecard, finish. destruct rounding; reflexivity. }
  rewrite (E i0), (E 0). unfold Score_of. cbn [fst snd]. split; intros (p & Hp & Ep); exists p; split; try exact Hp; lra.
Qed.
Print Assumptions C39_stale_intercept_refuted.

(** ** C35: pdo_odds *)

(** Score = points + pdo * log2(good odds / odds), where the good odds are (1 - p) / p for the model's probability p. *)
Theorem C35_pdo_score pdo odds pts ib mip ms mm ic vars xs ks l : 0 < odds -> vars <> [] ->
  Forall svar_ok vars -> sample_rows vars xs ks -> linear_sum ms mm vars xs = Ok l ->
  let p := logistic (ic + l) in
  score (fit_scorecard (PdoOdds pdo odds pts) false ib false mip 0 ms mm ic vars) vars xs
  = Ok (pts + pdo * log2 ((1 - p) / p / odds)).
Proof.
  intros Ho Hn Hv Hr El p. destruct (fit_line (PdoOdds pdo odds pts) false ib mip ms mm ic vars xs ks Hn Hv Hr) as (l' & El' & ->).
  rewrite El in El'. injection El' as <-. f_equal. now apply pdo_line.
Qed.
Print Assumptions C35_pdo_score.
Theorem C35_points_at_odds pdo odds pts ib mip ms mm ic vars xs ks l : 0 < odds -> vars <> [] ->
  Forall svar_ok vars -> sample_rows vars xs ks -> linear_sum ms mm vars xs = Ok l ->
  (1 - logistic (ic + l)) / logistic (ic + l) = odds ->
  score (fit_scorecard (PdoOdds pdo odds pts) false ib false mip 0 ms mm ic vars) vars xs = Ok pts.
Proof.
  intros Ho Hn Hv Hr El E. rewrite (C35_pdo_score pdo odds pts ib mip ms mm ic vars xs ks l Ho Hn Hv Hr El).
  rewrite E. unfold log2. replace (odds / odds) with 1 by (field; lra). rewrite ln_1. f_equal. unfold Rdiv. ring.
Qed.
Print Assumptions C35_points_at_odds.
Theorem C35_doubling_odds_adds_pdo pdo odds pts ib mip ms mm ic vars xs ks xs' ks' l l' s s' : 0 < odds -> vars <> [] ->
  Forall svar_ok vars -> sample_rows vars xs ks -> sample_rows vars xs' ks' ->
  linear_sum ms mm vars xs = Ok l -> linear_sum ms mm vars xs' = Ok l' ->
  (1 - logistic (ic + l')) / logistic (ic + l') = 2 * ((1 - logistic (ic + l)) / logistic (ic + l)) ->
  let sc := fit_scorecard (PdoOdds pdo odds pts) false ib false mip 0 ms mm ic vars in
  score sc vars xs = Ok s -> score sc vars xs' = Ok s' -> s' = s + pdo.
Proof.
  intros Ho Hn Hv Hr Hr' El El' E sc Hs Hs'. unfold sc in *.
  rewrite (C35_pdo_score pdo odds pts ib mip ms mm ic vars xs ks l Ho Hn Hv Hr El) in Hs.
  rewrite (C35_pdo_score pdo odds pts ib mip ms mm ic vars xs' ks' l' Ho Hn Hv Hr' El') in Hs'.
  injection Hs as <-. injection Hs' as <-. rewrite E.
  replace (2 * ((1 - logistic (ic + l)) / logistic (ic + l)) / odds)
    with (2 * ((1 - logistic (ic + l)) / logistic (ic + l) / odds)) by (unfold Rdiv; ring).
  rewrite log2_double; [ring|]. apply Rmult_lt_0_compat; [rewrite logistic_odds; apply exp_pos|now apply Rinv_0_lt_compat].
Qed.
Print Assumptions C35_doubling_odds_adds_pdo.
(** reverse_scorecard=True: doubling the odds of the event adds pdo ... *)
Theorem C35_reverse_doubling_odds_adds_pdo pdo odds pts ib mip ms mm ic vars xs ks xs' ks' l l' s s' : 0 < odds -> vars <> [] ->
  Forall svar_ok vars -> sample_rows vars xs ks -> sample_rows vars xs' ks' ->
  linear_sum ms mm vars xs = Ok l -> linear_sum ms mm vars xs' = Ok l' ->
  logistic (ic + l') / (1 - logistic (ic + l')) = 2 * (logistic (ic + l) / (1 - logistic (ic + l))) ->
  let sc := fit_scorecard (PdoOdds pdo odds pts) true ib false mip 0 ms mm ic vars in
  score sc vars xs = Ok s -> score sc vars xs' = Ok s' -> s' = s + pdo.
Proof.
  intros Ho Hn Hv Hr Hr' El El' E sc Hs Hs'. unfold sc in *.
  destruct (fit_line (PdoOdds pdo odds pts) true ib mip ms mm ic vars xs ks Hn Hv Hr) as (m & Em & Es).
  destruct (fit_line (PdoOdds pdo odds pts) true ib mip ms mm ic vars xs' ks' Hn Hv Hr') as (m' & Em' & Es').
  rewrite El in Em. injection Em as <-. rewrite El' in Em'. injection Em' as <-.
  rewrite Es in Hs. rewrite Es' in Hs'. rewrite pdo_line_rev in Hs, Hs' by exact Ho.
  injection Hs as <-. injection Hs' as <-. rewrite E.
  replace (2 * (logistic (ic + l) / (1 - logistic (ic + l))) / odds)
    with (2 * (logistic (ic + l) / (1 - logistic (ic + l)) / odds)) by (unfold Rdiv; ring).
  rewrite log2_double; [ring|]. apply Rmult_lt_0_compat; [rewrite logistic_odds'; apply exp_pos|now apply Rinv_0_lt_compat].
Qed.
Print Assumptions C35_reverse_doubling_odds_adds_pdo.
(** ... but a sample whose event odds are [odds] does not score [scorecard_points] unless the model's intercept is 0: the
    intercept's sign is not reversed, so it is off by 2 * pdo * intercept / ln 2. *)
Theorem C35_reverse_points_at_odds_refuted pdo odds pts ib mip ms mm ic vars xs ks l : 0 < odds -> 0 < pdo -> ic <> 0 ->
  vars <> [] -> Forall svar_ok vars -> sample_rows vars xs ks -> linear_sum ms mm vars xs = Ok l ->
  logistic (ic + l) / (1 - logistic (ic + l)) = odds ->
  exists s, score (fit_scorecard (PdoOdds pdo odds pts) true ib false mip 0 ms mm ic vars) vars xs = Ok s /\
    s = pts - 2 * pdo * ic / ln 2 /\ s <> pts.
Proof.
  intros Ho Hp Hi Hn Hv Hr El E.
  destruct (fit_line (PdoOdds pdo odds pts) true ib mip ms mm ic vars xs ks Hn Hv Hr) as (m & Em & Es).
  rewrite El in Em. injection Em as <-. eexists. split; [exact Es|]. rewrite pdo_line_rev by exact Ho. rewrite E.
  unfold log2. replace (odds / odds) with 1 by (field; lra). rewrite ln_1. pose proof ln2_pos as H2.
  assert (Hne : 2 * (pdo * ic / ln 2) <> 0).
  { unfold Rdiv. repeat apply Rmult_integral_contrapositive_currified; try lra. apply Rinv_neq_0_compat. lra. }
  split; [field; lra|]. intros C. apply Hne. lra.
Qed.
Print Assumptions C35_reverse_points_at_odds_refuted.

(** ** C36: min_max *)
(** [k1], [k2]: two choices of rows with different unscaled totals (otherwise the code divides by zero). *)
Theorem C36_min_max_range rev ib mip a b ms mm ic vars k1 k2 x1 x2 : a <= b ->
  Total (map (raw_points ms mm) vars) k1 x1 -> Total (map (raw_points ms mm) vars) k2 x2 -> x1 <> x2 ->
  let sc := fit_scorecard (MinMax a b) rev ib false mip 0 ms mm ic vars in
  (forall ks s, Score_of sc ks s -> a <= s <= b) /\
  (exists ks, Score_of sc ks a) /\ (exists ks, Score_of sc ks b).
Proof.
  intros Hab H1 H2 Hn sc. exact (minmax_range rev ib mip a b ic (map (raw_points ms mm) vars) k1 k2 x1 x2 Hab H1 H2 Hn).
Qed.
Print Assumptions C36_min_max_range.
(** Direction: without reverse_scorecard a larger linear predictor never scores higher; with it never lower. *)
Theorem C36_min_max_direction rev ib mip a b ms mm ic vars xs ks xs' ks' l l' s s' : a <= b -> vars <> [] ->
  Forall svar_ok vars -> sample_rows vars xs ks -> sample_rows vars xs' ks' ->
  linear_sum ms mm vars xs = Ok l -> linear_sum ms mm vars xs' = Ok l' -> l < l' ->
  let sc := fit_scorecard (MinMax a b) rev ib false mip 0 ms mm ic vars in
  score sc vars xs = Ok s -> score sc vars xs' = Ok s' -> if rev then s <= s' else s' <= s.
Proof.
  intros Hab Hn Hv Hr Hr' El El' Hl sc Hs Hs'. unfold sc in *.
  destruct (raw_total ms mm vars xs ks Hv Hr) as (m & Em & Ht). rewrite El in Em. injection Em as <-.
  destruct (raw_total ms mm vars xs' ks' Hv Hr') as (m' & Em' & Ht'). rewrite El' in Em'. injection Em' as <-.
  assert (Hlt : rsum (map lmin (map (raw_points ms mm) vars)) < rsum (map lmax (map (raw_points ms mm) vars)))
    by (eapply two_totals_lt; [exact Ht|exact Ht'|lra]).
  destruct (fit_line (MinMax a b) rev ib mip ms mm ic vars xs ks Hn Hv Hr) as (m & Em & Es).
  destruct (fit_line (MinMax a b) rev ib mip ms mm ic vars xs' ks' Hn Hv Hr') as (m' & Em' & Es').
  rewrite El in Em. injection Em as <-. rewrite El' in Em'. injection Em' as <-.
  rewrite Es in Hs. injection Hs as <-. rewrite Es' in Hs'. injection Hs' as <-. cbn [raw_total_line].
  set (mn := rsum (map lmin (map (raw_points ms mm) vars))) in *. set (M := rsum (map lmax (map (raw_points ms mm) vars))) in *.
  assert (Hi : 0 < / (M - mn)) by (apply Rinv_0_lt_compat; lra). assert (Hq : 0 <= (b - a) * / (M - mn)) by nra.
  destruct rev; unfold Rdiv.
  - replace (-1 * (a - b) * / (M - mn)) with ((b - a) * / (M - mn)) by ring. nra.
  - replace (1 * (a - b) * / (M - mn)) with (- ((b - a) * / (M - mn))) by ring. nra.
Qed.
Print Assumptions C36_min_max_direction.

(** ** C37: intercept_based *)
Theorem C37_intercept_based s rev mip i0 ms mm ic vars :
  let sc := fit_scorecard s rev true false mip i0 ms mm ic vars in
  (forall l, In l (fst sc) -> l <> [] -> In 0 l /\ forall x, In x l -> 0 <= x) /\
  (forall ks x, Score_of sc ks x <-> Score_of (fit_scorecard s rev false false mip 0 ms mm ic vars) ks x).
Proof.
  cbv zeta. unfold fit_scorecard. rewrite !finish_unrounded. set (u := scale s rev ic (map (raw_points ms mm) vars)). split.
  - intros l. apply ib_min_zero.
  - intros ks x. split.
    + intros (p & Hp & ->). destruct (Total_ex u ks) as (y & Hy). { apply ib_choice. eapply Total_choice; exact Hp. }
      exists y. split; [exact Hy|]. pose proof (ib_total _ _ _ Hy) as Hy'. rewrite (Total_fun _ _ _ _ Hp Hy'). cbn [snd]. ring.
    + intros (p & Hp & ->). exists (p - snd (intercept_based u)). split; [now apply ib_total|cbn [snd]; ring].
Qed.
Print Assumptions C37_intercept_based.

(** ** C38: rounding *)
(** All rounded points are integers; nearest-integer rounding changes a total by at most half a point per variable, and
    half a point for a rounded intercept (for min_max: when the optimisation fails). *)
Theorem C38_nearest_rounding s rev ib mip ms mm ic vars ks x y : (match s with MinMax _ _ => forall w, mip w = None | _ => True end) ->
  Score_of (fit_scorecard s rev ib false mip 0 ms mm ic vars) ks x ->
  Score_of (fit_scorecard s rev ib true mip 0 ms mm ic vars) ks y ->
  Rabs (y - x) <= (INR (length vars) + (if ib then 1 else 0)) / 2.
Proof.
  intros Hs Hx Hy. unfold fit_scorecard in *.
  pose proof (rint_total_diff s rev ib mip ic _ ks x y Hs Hx Hy) as H. now rewrite map_length in H.
Qed.
Print Assumptions C38_nearest_rounding.
Theorem C38_points_are_integers s rev ib mip i0 ms mm ic vars l p :
  In l (fst (fit_scorecard s rev ib true mip i0 ms mm ic vars)) -> In p l -> exists z : Z, p = IZR z.
Proof.
  unfold fit_scorecard, finish. destruct (if ib then _ else _) as [w i]. cbn [fst].
  assert (G : forall t : list (list R), In l (mapt rintR t) -> In p l -> exists z : Z, p = IZR z).
  { intros t Hl Hp. apply in_map_iff in Hl. destruct Hl as (r & <- & _). apply in_map_iff in Hp.
    destruct Hp as (y & <- & _). now exists (rint y). }
  destruct s; try apply G. destruct (mip w) as [q|]; [|apply G]. intros Hl Hp.
  apply in_map_iff in Hl. destruct Hl as (r & <- & _). apply in_map_iff in Hp. destruct Hp as (y & <- & _). now exists y.
Qed.
Print Assumptions C38_points_are_integers.
(** min_max with integer bounds: when the rounding optimisation answers with any feasible solution, every total is within
    the requested range. *)
Theorem C38_mip_rounding_in_range rev ib mip (a b : Z) ms mm ic vars p k1 k2 x1 x2 :
  (forall t q, mip t = Some q -> exists minb maxb, mip_feasible t q minb maxb) -> (a <= b)%Z ->
  Total (map (raw_points ms mm) vars) k1 x1 -> Total (map (raw_points ms mm) vars) k2 x2 -> x1 <> x2 ->
  mip (fst (fit_scorecard (MinMax (IZR a) (IZR b)) rev ib false mip 0 ms mm ic vars)) = Some p ->
  forall ks s, Score_of (fit_scorecard (MinMax (IZR a) (IZR b)) rev ib true mip 0 ms mm ic vars) ks s ->
    IZR a <= s <= IZR b.
Proof.
  intros Hm Hab H1 H2 Hn Hp. unfold fit_scorecard in *. rewrite finish_unrounded in Hp.
  apply (mip_rounded_range rev ib mip a b ic (map (raw_points ms mm) vars) p k1 k2 x1 x2 Hm Hab H1 H2 Hn).
  destruct ib; exact Hp.
Qed.
Print Assumptions C38_mip_rounding_in_range.

(** *** Concrete scorecards *)
Lemma lmin_is l x : In x l -> (forall y, In y l -> x <= y) -> lmin l = x.
Proof.
  intros H Hy. apply Rle_antisym; [now apply lmin_le|]. apply Hy. apply lmin_in. intros ->. easy.
Qed.
Lemma lmax_is l x : In x l -> (forall y, In y l -> y <= x) -> lmax l = x.
Proof.
  intros H Hy. apply Rle_antisym; [|now apply lmax_ge]. apply Hy. apply lmax_in. intros ->. easy.
Qed.
Ltac ext4 := cbn [In]; intros; repeat match goal with H : _ \/ _ |- _ => destruct H end; subst; try lra; try easy.
Lemma scale_id a b ic t : rsum (map lmin t) = a -> rsum (map lmax t) = b -> a < b -> scale (MinMax a b) true ic t = t.
Proof.
  intros E1 E2 Hab. cbn [scale]. rewrite E1, E2. replace (ic + b - (ic + a)) with (b - a) by ring.
  replace (-1 * (a - b) / (b - a)) with 1 by (field; lra). unfold mapt.
  transitivity (map (fun l : list R => l) t); [|now rewrite map_id]. apply map_ext. intros l.
  transitivity (map (fun x : R => x) l); [|now rewrite map_id]. apply map_ext. intros x.
  replace (a - 1 * (ic + a) + 1 * ic) with 0 by ring. unfold Rdiv. ring.
Qed.
(** one split, no special codes: rows bin 0, bin 1, Special, Missing *)
Definition ex_num (w0 w1 w2 w3 : R) : svar := mkV (Num [5%Z]) SpNone [w0; w1; w2; w3] 0 1.
Lemma raw_ex w0 w1 w2 w3 : raw_points Empirical Empirical (ex_num w0 w1 w2 w3) = [w0; w1; w2; w3].
Proof. unfold raw_points, raw_row, ex_num. cbn. rewrite !Rmult_1_r. reflexivity. Qed.
Lemma lmin_ex w0 w1 w2 w3 : w0 <= w1 -> w0 <= w2 -> w0 <= w3 -> lmin [w0; w1; w2; w3] = w0.
Proof. intros. apply lmin_is; [now left|]. ext4. Qed.
Lemma lmax_ex w0 w1 w2 w3 : w0 <= w1 -> w2 <= w1 -> w3 <= w1 -> lmax [w0; w1; w2; w3] = w1.
Proof. intros. apply lmax_is; [right; now left|]. ext4. Qed.

(** Two variables with points 1/2 and 3 (and 1 for special and missing): the range is [1, 6]. The optimisation is
    infeasible (integer variables at least 1/2 cannot sum to 1), the fallback rounds 1/2 to 0, and the smallest total
    is 0, outside the requested range. *)
Definition ex_half := ex_num (1/2) 3 1 1.
Theorem C38_fallback_out_of_range_refuted :
  let t := fst (fit_scorecard (MinMax 1 6) true false false (fun _ => None) 0 Empirical Empirical 0 [ex_half; ex_half]) in
  (forall p minb maxb, ~ mip_feasible t p minb maxb) /\
  score (fit_scorecard (MinMax 1 6) true false true (fun _ => None) 0 Empirical Empirical 0 [ex_half; ex_half])
    [ex_half; ex_half] [XNum 0; XNum 0] = Ok 0.
Proof.
  cbv zeta. unfold fit_scorecard. rewrite finish_unrounded. cbn [map fst]. unfold ex_half at 1 2 3 4. rewrite raw_ex.
  set (l := [1/2; 3; 1; 1]).
  assert (Em : lmin l = 1/2) by (apply lmin_ex; lra). assert (EM : lmax l = 3) by (apply lmax_ex; lra).
  assert (Es : scale (MinMax 1 6) true 0 [l; l] = [l; l]).
  { apply scale_id; cbn [map rsum]; rewrite ?Em, ?EM; lra. }
  assert (Er : rint (1/2) = 0%Z).
  { unfold rint. assert (Ei : Int_part (1/2) = 0%Z). { destruct (base_Int_part (1/2)) as [B1 B2].
      assert (Int_part (1/2) < 1)%Z by (apply lt_IZR; lra). assert (-1 < Int_part (1/2))%Z by (apply lt_IZR; lra). lia. }
    rewrite Ei. destruct (Rlt_dec _ _); [lra|]. destruct (Rlt_dec _ _); [lra|]. reflexivity. }
  assert (Er1 : rint 1 = 1%Z) by apply (rint_IZR 1).
  rewrite Es. split.
  - intros p minb maxb (_ & Hl & _ & _ & _ & Hb & _ & _ & _ & Hs & _). cbn [map rsum] in Hs. rewrite Em in Hs.
    replace (1/2 + (1/2 + 0)) with 1 in Hs by lra. rewrite Er1 in Hs.
    destruct minb as [|m1 [|m2 [|]]]; try discriminate Hl. cbn [map] in Hb. rewrite Em in Hb.
    assert (Ev : lmin [1/2; 1/2] = 1/2) by (apply lmin_is; ext4; now left). rewrite Ev in Hb.
    inversion Hb as [|? ? [H1 _] Hb']; subst. inversion Hb' as [|? ? [H2 _] _]; subst. cbn [zsum] in Hs.
    assert (0 < m1)%Z by (apply lt_IZR; lra). assert (0 < m2)%Z by (apply lt_IZR; lra). lia.
  - unfold finish. rewrite Es. unfold score. cbn [fst snd mapt map score_sum]. unfold l. cbn [map]. unfold rintR. rewrite Er.
    cbn. f_equal. lra.
Qed.
Print Assumptions C38_fallback_out_of_range_refuted.

(** Three variables with smallest points 1/2, 1/2 and 0: range [1, 5]. An optimal solution of the rounding problem rounds
    both halves up, and every total is at least 2: the requested minimum is not attained. *)
Definition ex_t : list (list R) := [[1/2; 2; 1; 1]; [1/2; 2; 1; 1]; [0; 1; 1; 1]].
Definition ex_p : list (list Z) := [[1; 2; 1; 1]%Z; [1; 2; 1; 1]%Z; [0; 1; 1; 1]%Z].
Definition ex_vars := [ex_num (1/2) 2 1 1; ex_num (1/2) 2 1 1; ex_num 0 1 1 1].
Lemma half_dist z : 1/2 <= Rabs (1/2 - IZR z).
Proof.
  destruct (Z_le_gt_dec z 0) as [H|H].
  - apply IZR_le in H. rewrite Rabs_right; lra.
  - assert (1 <= z)%Z by lia. apply IZR_le in H0. rewrite Rabs_left; lra.
Qed.
Lemma dist_pos l p : 0 <= rsum (map2 (fun a b => Rabs (a - IZR b)) l p).
Proof.
  revert p. induction l as [|a l IH]; intros [|b p]; cbn [map2 rsum]; try lra. pose proof (Rabs_pos (a - IZR b)).
  specialize (IH p). lra.
Qed.
Theorem C38_min_not_attained_refuted :
  fst (fit_scorecard (MinMax 1 5) true false false (fun _ => None) 0 Empirical Empirical 0 ex_vars) = ex_t /\
  (exists minb maxb, mip_feasible ex_t ex_p minb maxb) /\
  (forall p minb maxb, mip_feasible ex_t p minb maxb -> mip_cost ex_t ex_p <= mip_cost ex_t p) /\
  (forall mip, mip ex_t = Some ex_p -> forall ks s,
    Score_of (fit_scorecard (MinMax 1 5) true false true mip 0 Empirical Empirical 0 ex_vars) ks s -> 2 <= s).
Proof.
  assert (E0 : map (raw_points Empirical Empirical) ex_vars = ex_t).
  { unfold ex_vars, ex_t. cbn [map]. now rewrite !raw_ex. }
  assert (M1 : lmin [1/2; 2; 1; 1] = 1/2) by (apply lmin_ex; lra). assert (M2 : lmax [1/2; 2; 1; 1] = 2) by (apply lmax_ex; lra).
  assert (M3 : lmin [0; 1; 1; 1] = 0) by (apply lmin_ex; lra). assert (M4 : lmax [0; 1; 1; 1] = 1) by (apply lmax_ex; lra).
  assert (Es : scale (MinMax 1 5) true 0 ex_t = ex_t).
  { unfold ex_t. apply scale_id; cbn [map rsum]; rewrite ?M1, ?M2, ?M3, ?M4; lra. }
  split; [|split; [|split]].
  - unfold fit_scorecard. rewrite finish_unrounded. cbn [fst]. now rewrite E0.
  - exists [0; 1; 0]%Z, [2; 2; 1]%Z. unfold mip_feasible, ex_t, ex_p. cbn [map]. rewrite M1, M2, M3, M4.
    assert (V1 : lmin [1/2; 1/2; 0] = 0) by (apply lmin_is; [right; right; now left|ext4]).
    assert (V2 : lmax [2; 2; 1] = 2) by (apply lmax_is; [now left|ext4]). rewrite V1, V2.
    repeat match goal with |- _ /\ _ => split end; try reflexivity;
      repeat (apply Forall_cons || apply Forall_nil || apply Forall2_cons || apply Forall2_nil); try reflexivity; try lia; try lra;
      cbn [rsum zsum].
    + replace (1/2 + (1/2 + (0 + 0))) with 1 by lra. symmetry. apply (rint_IZR 1).
    + replace (2 + (2 + (1 + 0))) with 5 by lra. symmetry. apply (rint_IZR 5).
  - intros p minb maxb (Hl & _ & _ & Hll & _).
    assert (Ec : mip_cost ex_t ex_p = 1).
    { unfold mip_cost, ex_t, ex_p. cbn [map2 rsum]. replace (1/2 - 1) with (- (1/2)) by lra.
      rewrite Rabs_Ropp, !Rminus_diag_eq by lra. rewrite Rabs_R0, Rabs_right by lra. lra. }
    rewrite Ec. unfold mip_cost, ex_t. inversion Hll as [|p1 t1 pr tr L1 Hll1]; subst.
    inversion Hll1 as [|p2 t2 pr2 tr2 L2 Hll2]; subst. inversion Hll2 as [|p3 t3 pr3 tr3 L3 Hll3]; subst.
    inversion Hll3; subst. destruct p1 as [|z1 p1]; [discriminate L1|]. destruct p2 as [|z2 p2]; [discriminate L2|].
    cbn [map2 rsum]. pose proof (half_dist z1). pose proof (half_dist z2).
    pose proof (dist_pos [2; 1; 1] p1). pose proof (dist_pos [2; 1; 1] p2). pose proof (dist_pos [0; 1; 1; 1] p3).
    cbn [map2 rsum] in *. lra.
  - intros mip Hm ks s (q & Hq & ->). unfold fit_scorecard, finish in *. rewrite E0, Es in *. rewrite Hm in *.
    cbn [fst snd] in *. apply Total_bounds in Hq. unfold ex_p in Hq. cbn [map] in Hq.
    rewrite (lmin_ex 1 2 1 1), (lmin_ex 0 1 1 1) in Hq by lra. cbn [rsum] in Hq. lra.
Qed.
Print Assumptions C38_min_not_attained_refuted.

(** *** Hypotheses are met *)
Example C35_C39_hyps_met :
  Forall svar_ok [ex_num (1/2) 2 1 1; ex_cat] /\
  sample_rows [ex_num (1/2) 2 1 1; ex_cat] [XNum 7; XNum 2] [1; 1]%nat /\
  sample_rows [ex_num (1/2) 2 1 1; ex_cat] [XNaN; XNaN] [3; 3]%nat /\
  linear_sum Empirical Empirical [ex_num (1/2) 2 1 1; ex_cat] [XNum 7; XNum 2] = Ok (1 * 2 + (1 * 1 + 0)).
Proof.
  assert (Hnd : forall i j c, listed [[1%Z]; [2%Z]] i c -> listed [[1%Z]; [2%Z]] j c -> i = j).
  { intros i j c (b & E & H) (b' & E' & H'). destruct i as [|[|[|]]]; destruct j as [|[|[|]]]; cbn in *; try discriminate;
      try reflexivity; injection E as <-; injection E' as <-; destruct H as [<-|[]]; destruct H' as [E|[]]; discriminate. }
  split; [|split; [|split]].
  - constructor; [|constructor; [|constructor]].
    + unfold svar_ok. cbn. split; [exact I|split; [reflexivity|]]. repeat constructor.
    + unfold svar_ok. cbn. split; [exact I|split; [reflexivity|exact Hnd]].
  - constructor; [|constructor; [|constructor]].
    + cbn. right. split; [easy|]. unfold in_bin_i. cbn. split; [lia|exact I].
    + cbn. right. split; [easy|]. exists [2%Z]. split; [reflexivity|now left].
  - constructor; [|constructor; [|constructor]]; reflexivity.
  - reflexivity.
Qed.
Example C36_hyps_met : Total (map (raw_points Empirical Empirical) ex_vars) [0; 0; 0]%nat (1/2 + (1/2 + (0 + 0))) /\
  Total (map (raw_points Empirical Empirical) ex_vars) [1; 1; 1]%nat (2 + (2 + (1 + 0))).
Proof. unfold ex_vars. cbn [map]. rewrite !raw_ex. split; repeat constructor. Qed.
