(** C85: the tables of the piecewise binning objects (build, analysis, reported statistics). *)
From Coq Require Import List ZArith Reals Bool Arith Lia Lra.
From Verif Require Import Model.Arr Model.Core Model.Metrics Model.MultiT Model.MultiTable Model.Cont Model.ContTable Model.PWLife Model.PWTable
  Spec.CoreSpec Spec.MetricsSpec Spec.MultiTableSpec Spec.ContTableSpec Spec.PWLifeSpec Spec.PWTableSpec
  Proofs.ArrP Proofs.MetricsP Proofs.MetricsQ Proofs.MultiTableR Proofs.ContTableP Proofs.ContTableQ Proofs.PWTableP Props.PWLifeProps.
Import ListNotations.
Open Scope Z_scope.

(** ** build() *)
(** Binary target, after any earlier calls: build() succeeds and returns one entry per row (bins, special rows, Missing): the
    records and their share, the two counts; the columns c0, c1, ... hold the coefficients of the polynomial of each bin, and
    for a special row or Missing its event rate in c0 (0 if one class is absent) and 0 in the others; the Totals row, shown on
    request only, holds the sums of the columns. *)
Theorem C85_binary_build : forall tt sp t h b outs rows bins specials m n totals,
  tab_exec tt (tab_new sp t) h = (b, outs) -> pt_rows t = BRows rows ->
  laid_out sp (pt_splits t) rows bins specials m -> coef_of (pt_splits t) (pt_coef t) n ->
  exists b' f, tab_step tt b (TBuild true true totals) = (b', Ok (TVFrame f)) /\
    fr_count f = map (fun r => fst r + snd r) rows /\ fr_rows f = FBin (map fst rows) (map snd rows) /\
    length (fr_coef f) = n /\
    (forall i, (i < n)%nat -> exists col, nth_error (fr_coef f) i = Some (map (fun c => Some (nth i c 0%R)) (pt_coef t) ++ col) /\
       length col = S (length specials) /\
       forall j r v, nth_error (specials ++ [m]) j = Some r -> nth_error col j = Some v ->
         exists x, v = Some x /\ (i = 0%nat -> shown_rate r x) /\ (i <> 0%nat -> x = 0%R)) /\
    (totals = true -> fr_totals f = Some (TotBin (zsum (map (fun r => fst r + snd r) rows)) (zsum (map fst rows)) (zsum (map snd rows)))) /\
    (totals = false -> fr_totals f = None) /\
    (counts_ok2 rows -> (exists r, In r rows /\ 0 < fst r + snd r) ->
       rsum (fr_share f) = 1%R /\
       forall j r s, nth_error rows j = Some r -> nth_error (fr_share f) j = Some s ->
         (0 <= s <= 1)%R /\ s = (IZR (fst r + snd r) / IZR (zsum (map (fun r => (fst r + snd r)%Z) rows)))%R).
Proof.
  intros tt sp t h b outs rows bins specials m n totals H T L C. destruct (tab_exec_facts _ _ _ _ _ H) as (A & B & _ & _). cbn [tab_new tb_sp tb_t] in A, B.
  assert (CE : map b_count rows = map (fun r => fst r + snd r) rows) by (apply map_ext; intros r; unfold b_count; lia).
  assert (BT : b_total rows = zsum (map (fun r => fst r + snd r) rows)) by (rewrite b_total_eq, CE; reflexivity).
  unfold tab_step. rewrite A, B, T. cbn [negb]. unfold build_bin. rewrite (fits_ok sp _ rows bins specials m _ n L C). cbn [negb].
  eexists _, _. split; [reflexivity|]. cbn [fr_count fr_rows fr_coef fr_totals fr_share].
  split; [exact CE|]. split; [reflexivity|]. split; [exact (coef_len _ _ _ _ _ C)|]. split.
  { intros i Hi. rewrite (coef_nth _ _ _ _ _ _ _ _ _ _ L C Hi). eexists. split; [reflexivity|].
    destruct (Nat.eqb_spec i 0) as [-> |N]; (split; [rewrite map_length, app_length; cbn [length]; lia|]); intros j r v J V; rewrite (map_nth_error _ _ _ J) in V; injection V as <-.
    - exists (b_rate r). split; [reflexivity|]. split; [intros _; apply b_rate_shown|intros K; now destruct K].
    - exists 0%R. split; [reflexivity|]. split; [intros K; contradiction|reflexivity]. }
  split; [intros ->; now rewrite BT|]. split; [intros ->; reflexivity|].
  intros CO (r0 & I0 & P0).
  assert (TP : 0 < b_total rows).
  { rewrite b_total_eq. assert (G : forall x, In x (map b_count rows) -> 0 <= x). { intros x K. apply in_map_iff in K. destruct K as (s & <- & J). specialize (CO s J). unfold b_count. lia. }
    destruct (zsum_ge _ G) as [_ Q]. specialize (Q _ (in_map b_count _ _ I0)). unfold b_count in Q at 1. lia. }
  destruct (b_shares_ok rows CO TP) as [S1 S2]. split; [exact S2|]. intros j r s J V. rewrite (map_nth_error _ _ _ J) in V. injection V as <-. split.
  - apply S1, in_map, (nth_error_In _ _ J).
  - unfold b_share. rewrite BT. unfold b_count. f_equal. f_equal. lia.
Qed.
Print Assumptions C85_binary_build.

(** Continuous target: as above, with the mean of the row in c0 (0 without records, NaN when the sum is undefined); in Totals,
    Count, Sum and Zeros are over all rows, while Min and Max are over the bins only, the special rows and Missing left out. *)
Theorem C85_continuous_build : forall tt sp t h b outs rows bins specials m n totals,
  tab_exec tt (tab_new sp t) h = (b, outs) -> pt_rows t = CRows rows ->
  laid_out sp (pt_splits t) rows bins specials m -> coef_of (pt_splits t) (pt_coef t) n ->
  exists b' f, tab_step tt b (TBuild true true totals) = (b', Ok (TVFrame f)) /\
    fr_count f = map r_n rows /\ fr_rows f = FCont rows /\ length (fr_coef f) = n /\
    (forall i, (i < n)%nat -> exists col, nth_error (fr_coef f) i = Some (map (fun c => Some (nth i c 0%R)) (pt_coef t) ++ col) /\
       length col = S (length specials) /\
       forall j r v, nth_error (specials ++ [m]) j = Some r -> nth_error col j = Some v ->
         (i = 0%nat -> shown_mean r v) /\ (i <> 0%nat -> v = Some 0%R)) /\
    (totals = false -> fr_totals f = None) /\
    (totals = true -> exists mn mx, fr_totals f = Some (TotCont (zsum (map r_n rows)) (zsum (somes (map r_sum rows))) mn mx (zsum (map r_zero rows))) /\
       ((forall r, In r bins -> (exists a, r_min r = Fin a) /\ (exists a, r_max r = Fin a)) ->
        exists a c, mn = Fin a /\ mx = Fin c /\
          (exists r, In r bins /\ r_min r = Fin a) /\ (forall r y, In r bins -> r_min r = Fin y -> a <= y) /\
          (exists r, In r bins /\ r_max r = Fin c) /\ (forall r y, In r bins -> r_max r = Fin y -> y <= c))) /\
    ((forall r, In r rows -> 0 <= r_n r) -> (exists r, In r rows /\ 0 < r_n r) ->
       rsum (fr_share f) = 1%R /\
       forall j r s, nth_error rows j = Some r -> nth_error (fr_share f) j = Some s ->
         (0 <= s <= 1)%R /\ s = (IZR (r_n r) / IZR (zsum (map r_n rows)))%R).
Proof.
  intros tt sp t h b outs rows bins specials m n totals H T L C. destruct (tab_exec_facts _ _ _ _ _ H) as (A & B & _ & _). cbn [tab_new tb_sp tb_t] in A, B.
  unfold tab_step. rewrite A, B, T. cbn [negb]. unfold build_cont. rewrite (fits_ok sp _ rows bins specials m _ n L C). cbn [negb].
  eexists _, _. split; [reflexivity|]. cbn [fr_count fr_rows fr_coef fr_totals fr_share].
  split; [reflexivity|]. split; [reflexivity|]. split; [exact (coef_len _ _ _ _ _ C)|]. split.
  { intros i Hi. rewrite (coef_nth _ _ _ _ _ _ _ _ _ _ L C Hi). eexists. split; [reflexivity|].
    destruct (Nat.eqb_spec i 0) as [-> |N]; (split; [rewrite map_length, app_length; cbn [length]; lia|]); intros j r v J V; rewrite (map_nth_error _ _ _ J) in V; injection V as <-.
    - split; [intros _; apply pc_mean_shown|intros K; now destruct K].
    - split; [intros K; contradiction|reflexivity]. }
  split; [intros ->; reflexivity|]. split.
  { intros ->. eexists _, _. split; [reflexivity|]. intros F.
    assert (E : firstn (length rows - S (pw_n_specials sp)) rows = bins).
    { destruct (laid_len _ _ _ _ _ _ L) as [_ ->]. destruct L as (-> & _ & _). rewrite firstn_app, Nat.sub_diag, firstn_O, app_nil_r. apply firstn_all. }
    rewrite E. unfold ct_total_min, ct_total_max.
    assert (NB : exists r, In r bins). { destruct L as (_ & LB & _). destruct bins as [|r bins]; [discriminate LB|]. exists r. left. reflexivity. }
    destruct NB as [r0 I0].
    destruct (nan_least (map r_min bins)) as [[_ K]|(a & Ea & Ia & La)].
    { intros e K. apply in_map_iff in K. destruct K as (r & <- & I). destruct (F r I) as [[x X] _]. right. exists x. exact X. }
    { specialize (K _ (in_map r_min _ _ I0)). destruct (F r0 I0) as [[x X] _]. congruence. }
    destruct (nan_most (map r_max bins)) as [[_ K]|(c & Ec & Ic & Lc)].
    { intros e K. apply in_map_iff in K. destruct K as (r & <- & I). destruct (F r I) as [_ [x X]]. right. exists x. exact X. }
    { specialize (K _ (in_map r_max _ _ I0)). destruct (F r0 I0) as [_ [x X]]. congruence. }
    exists a, c. split; [exact Ea|]. split; [exact Ec|]. split; [|split; [|split]].
    - apply in_map_iff in Ia. destruct Ia as (r & X & I). exists r. split; assumption.
    - intros r y I X. apply La. rewrite <- X. now apply in_map.
    - apply in_map_iff in Ic. destruct Ic as (r & X & I). exists r. split; assumption.
    - intros r y I X. apply Lc. rewrite <- X. now apply in_map. }
  intros CO (r0 & I0 & P0).
  assert (TP : 0 < zsum (map r_n rows)).
  { assert (G : forall x, In x (map r_n rows) -> 0 <= x). { intros x K. apply in_map_iff in K. destruct K as (s & <- & J). now apply CO. }
    destruct (zsum_ge _ G) as [_ Q]. specialize (Q _ (in_map r_n _ _ I0)). lia. }
  destruct (c_shares_ok rows CO TP) as [S1 S2]. split; [exact S2|]. intros j r s J V. rewrite (map_nth_error _ _ _ J) in V. injection V as <-. split.
  - apply S1, in_map, (nth_error_In _ _ J).
  - reflexivity.
Qed.
Print Assumptions C85_continuous_build.

(** The Min of Totals can be above the Min of a row of the same table. *)
Theorem C85_totals_min_refuted : exists tt t rows f mn mx s z, pt_rows t = CRows rows /\
  (exists bins specials m, laid_out SpNone (pt_splits t) rows bins specials m) /\
  snd (tab_step tt (tab_new SpNone t) (TBuild true true true)) = Ok (TVFrame f) /\
  fr_totals f = Some (TotCont 4 s (Fin mn) (Fin mx) z) /\
  exists r y, In r rows /\ 0 < r_n r /\ r_min r = Fin y /\ y < mn.
Proof.
  set (r1 := {| r_n := 2; r_sum := Some 11; r_std := StdZero; r_min := Fin 5; r_max := Fin 6; r_zero := 0 |}).
  set (r2 := {| r_n := 1; r_sum := Some (-3); r_std := StdZero; r_min := Fin (-3); r_max := Fin (-3); r_zero := 0 |}).
  set (r3 := {| r_n := 1; r_sum := Some 0; r_std := StdZero; r_min := Fin 0; r_max := Fin 0; r_zero := 1 |}).
  exists (mkTT (fun _ _ => 0%R) (fun _ _ => None)), (mkPT [] [[1%R; 2%R]] (CRows [r1; r2; r3]) None None 0 9 []), [r1; r2; r3].
  eexists _, 5, 6, 8, 1. split; [reflexivity|]. split; [exists [r1], [r2], r3; split; [reflexivity|split; reflexivity]|].
  split; [reflexivity|]. split; [reflexivity|]. exists r2, (-3). split; [right; left; reflexivity|]. split; [reflexivity|]. split; [reflexivity|lia].
Qed.
Print Assumptions C85_totals_min_refuted.

(** ** analysis() *)
(** Which rows are compared: after a successful build(), analysis() (with accepted arguments) reports the tests of neighbouring
    rows among the bins and the first k - 1 of the k special rows. *)
Theorem C85_compared_rows : forall tt sp t h b outs rows bins specials m,
  tab_exec tt (tab_new sp t) h = (b, outs) -> t_succeeded t_is_build h outs ->
  (1 <= special_row_count sp)%nat -> laid_out sp (pt_splits t) rows bins specials m ->
  (pt_rows t = BRows rows -> forall b' a, tab_step tt b (TAnalysis true) = (b', Ok (TVAnalysis a)) ->
     exists v pv q, a = ABinary v pv q /\ tests_of (tt_bin tt) (bins ++ firstn (special_row_count sp - 1) specials) pv) /\
  (forall rows' bins' specials' m', pt_rows t = CRows rows' -> laid_out sp (pt_splits t) rows' bins' specials' m' ->
     forall valid, exists b' pv q, tab_step tt b (TAnalysis valid) = (b', Ok (TVAnalysis (AContinuous pv q))) /\
       tests_of (tt_cont tt) (bins' ++ firstn (special_row_count sp - 1) specials') pv /\ (q = None <-> In None pv)).
Proof.
  intros tt sp t h b outs rows bins specials m H SB K1 L. destruct (tab_exec_facts _ _ _ _ _ H) as (A & B & C & _). cbn [tab_new tb_sp tb_t tb_built] in A, B, C.
  assert (BB : tb_built b = true) by (apply C; right; exact SB).
  assert (CE : forall X (rows bins specials : list X) m, laid_out sp (pt_splits t) rows bins specials m ->
               compared rows = bins ++ firstn (special_row_count sp - 1) specials).
  { intros X rs bs ss mm (-> & _ & LS). rewrite compared_eq by lia. now rewrite LS. }
  split.
  - intros T b' a. unfold tab_step. rewrite B, T, BB. cbn [negb]. destruct (b_cramer rows) as [v|k]; intros E; [|discriminate].
    injection E as <- <-. eexists _, _, _. split; [reflexivity|]. unfold b_pvalues. rewrite (CE _ _ _ _ _ L). apply consecutive_tests.
  - intros rows' bins' specials' m' T L' valid. unfold tab_step. rewrite B, T, BB. cbn [negb]. eexists _, _, _. split; [reflexivity|].
    split; [unfold c_pvalues; rewrite (CE _ _ _ _ _ L'); apply consecutive_tests|].
    unfold c_quality. rewrite <- no_nan_none. destruct (no_nan _); cbn [option_map]; split; congruence.
Qed.
Print Assumptions C85_compared_rows.

(** With one special row (no dict of special codes) exactly the bins are compared. *)
Theorem C85_bins_compared : forall tt sp t h b outs rows bins s m,
  tab_exec tt (tab_new sp t) h = (b, outs) -> t_succeeded t_is_build h outs ->
  laid_out sp (pt_splits t) rows bins [s] m -> pt_rows t = BRows rows -> forall b' a, tab_step tt b (TAnalysis true) = (b', Ok (TVAnalysis a)) ->
  exists v pv q, a = ABinary v pv q /\ tests_of (tt_bin tt) bins pv.
Proof.
  intros tt sp t h b outs rows bins s m H SB L T b' a E. pose proof L as (_ & _ & LS). cbn [length] in LS.
  destruct (C85_compared_rows tt sp t h b outs rows bins [s] m H SB ltac:(lia) L) as [X _].
  destruct (X T b' a E) as (v & pv & q & -> & P). exists v, pv, q. split; [reflexivity|]. rewrite <- LS in P. cbn [Nat.sub firstn] in P. now rewrite app_nil_r in P.
Qed.
Print Assumptions C85_bins_compared.

(** When analysis() of the binary table raises after a successful build(): ValueError, exactly when two or more rows are compared
    and one of them has no record, or one class has no record in any of them. Otherwise Cramer's V is in [0, 1] (0 if one row is
    compared), and so is the quality score when the p-values are. *)
Theorem C85_binary_analysis : forall tt sp t h b outs rows bins specials m,
  tab_exec tt (tab_new sp t) h = (b, outs) -> t_succeeded t_is_build h outs ->
  (1 <= special_row_count sp)%nat -> laid_out sp (pt_splits t) rows bins specials m -> pt_rows t = BRows rows -> counts_ok2 rows ->
  (exists r, In r rows /\ 0 < fst r + snd r) ->
  let cmp := bins ++ firstn (special_row_count sp - 1) specials in
  let undefined := (2 <= length cmp)%nat /\ ((exists r, In r cmp /\ fst r + snd r = 0) \/ (forall r, In r cmp -> fst r = 0) \/ (forall r, In r cmp -> snd r = 0)) in
  (undefined <-> snd (tab_step tt b (TAnalysis true)) = Err ValueError) /\
  (~ undefined -> exists b' v pv q, tab_step tt b (TAnalysis true) = (b', Ok (TVAnalysis (ABinary v pv q))) /\ (0 <= v <= 1)%R /\
     ((length cmp <= 1)%nat -> v = 0%R) /\
     ((forall x y, 0 <= tt_bin tt x y <= 1)%R -> (0 <= table_iv t)%R -> (0 <= q <= 1)%R) /\
     snd (tab_step tt b' TQuality) = Ok (TVNumber q)).
Proof.
  intros tt sp t h b outs rows bins specials m H SB K1 L T CO EX cmp undefined. destruct (tab_exec_facts _ _ _ _ _ H) as (A & B & C & _).
  cbn [tab_new tb_sp tb_t tb_built] in A, B, C. assert (BB : tb_built b = true) by (apply C; right; exact SB).
  assert (CE : compared rows = cmp). { destruct L as (-> & _ & LS). unfold cmp. rewrite compared_eq by lia. now rewrite LS. }
  assert (TP : 0 < b_total rows).
  { destruct EX as (r0 & I0 & P0). rewrite b_total_eq. assert (G : forall x, In x (map b_count rows) -> 0 <= x). { intros x K. apply in_map_iff in K. destruct K as (s & <- & J). specialize (CO s J). unfold b_count. lia. }
    destruct (zsum_ge _ G) as [_ Q]. specialize (Q _ (in_map b_count _ _ I0)). unfold b_count in Q at 1. lia. }
  assert (CC : counts_ok2 cmp). { rewrite <- CE. intros r I. apply CO. unfold compared in I. rewrite <- (firstn_skipn (length rows - 2) rows). apply in_or_app. now left. }
  assert (Step : tab_step tt b (TAnalysis true) =
    match b_cramer rows with Err k => (b, Err k) | Ok v => (mkTb sp t true (Some (b_quality (tt_bin tt) (table_iv t) rows)),
      Ok (TVAnalysis (ABinary v (b_pvalues (tt_bin tt) rows) (b_quality (tt_bin tt) (table_iv t) rows)))) end).
  { unfold tab_step. rewrite A, B, T, BB. cbn [negb]. reflexivity. }
  assert (Good : forall v, b_cramer rows = Ok v -> (0 <= v <= 1)%R -> ((length cmp <= 1)%nat -> v = 0%R) ->
     exists b' v pv q, tab_step tt b (TAnalysis true) = (b', Ok (TVAnalysis (ABinary v pv q))) /\ (0 <= v <= 1)%R /\
     ((length cmp <= 1)%nat -> v = 0%R) /\ ((forall x y, 0 <= tt_bin tt x y <= 1)%R -> (0 <= table_iv t)%R -> (0 <= q <= 1)%R) /\
     snd (tab_step tt b' TQuality) = Ok (TVNumber q)).
  { intros v E V1 V2. rewrite Step, E. eexists _, v, _, _. split; [reflexivity|]. split; [exact V1|]. split; [exact V2|]. split.
    - intros P I. now apply b_quality_range.
    - unfold tab_step. cbn [tb_t tb_quality]. rewrite T. reflexivity. }
  assert (Lc : length (compared rows) = length cmp) by now rewrite CE.
  destruct (le_lt_dec 2 (length cmp)) as [G|G].
  - assert (NE : cmp <> []) by (intros ->; cbn in G; lia).
    destruct (cramer_iff cmp NE CC) as [(v & V & R & P1 & (r1 & I1 & Q1) & (r2 & I2 & Q2))|[V U]].
    + assert (BC : b_cramer rows = Ok (snd v)). { unfold b_cramer. rewrite Lc. rewrite (proj2 (Nat.leb_le _ _) G), CE, V. destruct v. reflexivity. }
      assert (ND : ~ undefined). { intros [_ [(r & I & Z0)|[Z0|Z0]]]; [specialize (P1 r I); lia|specialize (Z0 r1 I1); lia|specialize (Z0 r2 I2); lia]. }
      split.
      * split; [intros X; contradiction|]. rewrite Step, BC. discriminate.
      * intros _. apply (Good (snd v) BC R). lia.
    + assert (BC : b_cramer rows = Err ValueError). { unfold b_cramer. rewrite Lc. rewrite (proj2 (Nat.leb_le _ _) G), CE, V. reflexivity. }
      split.
      * split; [intros _; rewrite Step, BC; reflexivity|]. intros _. split; [exact G|exact U].
      * intros N. exfalso. apply N. split; [exact G|exact U].
  - assert (BC : b_cramer rows = Ok 0%R). { unfold b_cramer. rewrite Lc. rewrite (proj2 (Nat.leb_gt _ _) G). reflexivity. }
    split.
    + split; [intros [X _]; lia|]. rewrite Step, BC. discriminate.
    + intros _. apply (Good 0%R BC); [lra|reflexivity].
Qed.
Print Assumptions C85_binary_analysis.

(** Corollary: with one special row, and bins that all have events and non-events (what the inner binning gives), analysis() never
    raises after build(). *)
Theorem C85_analysis_never_raises : forall tt sp t h b outs rows bins s m,
  tab_exec tt (tab_new sp t) h = (b, outs) -> t_succeeded t_is_build h outs ->
  laid_out sp (pt_splits t) rows bins [s] m -> pt_rows t = BRows rows -> counts_ok2 rows -> (forall r, In r bins -> has_both r) ->
  exists b' a, tab_step tt b (TAnalysis true) = (b', Ok (TVAnalysis a)).
Proof.
  intros tt sp t h b outs rows bins s m H SB L T CO HB. pose proof L as (E & LB & LS). cbn [length] in LS.
  assert (X : exists r0, In r0 bins). { destruct bins as [|r0 bins]; [discriminate LB|]. exists r0. now left. } destruct X as [r0 I0].
  destruct (C85_binary_analysis tt sp t h b outs rows bins [s] m H SB ltac:(lia) L T CO) as [_ G].
  { exists r0. split; [rewrite E; apply in_or_app; now left|]. destruct (HB r0 I0). lia. }
  destruct G as (b' & v & pv & q & Y & _).
  { rewrite <- LS. cbn [Nat.sub firstn]. rewrite app_nil_r. intros [_ [(r & I & Z0)|[Z0|Z0]]].
    - destruct (HB r I). lia.
    - specialize (Z0 r0 I0). destruct (HB r0 I0). lia.
    - specialize (Z0 r0 I0). destruct (HB r0 I0). lia. }
  exists b'. eexists. exact Y.
Qed.
Print Assumptions C85_analysis_never_raises.

(** A dict of special codes: special rows are compared as if they were bins, with the last bin as neighbour ... *)
Theorem C85_dict_specials_compared_refuted : exists sp t rows bins s1 s2 m,
  laid_out sp (pt_splits t) rows bins [s1; s2] m /\ pt_rows t = BRows rows /\ (forall r, In r bins -> has_both r) /\ length bins = 2%nat /\
  forall tt, exists v q lastbin, nth_error bins 1 = Some lastbin /\
    snd (tab_step tt (fst (tab_step tt (tab_new sp t) (TBuild true true true))) (TAnalysis true)) =
    Ok (TVAnalysis (ABinary v [tt_bin tt (nth 0 bins m) lastbin; tt_bin tt lastbin s1] q)).
Proof.
  exists (SpDict [(1, [XNum (-1)]); (2, [XNum (-2)])]), (mkPT [5] [[1%R]; [2%R]] (BRows [(3, 4); (5, 6); (1, 2); (2, 1); (0, 0)]) None None 0 9 []),
    [(3, 4); (5, 6); (1, 2); (2, 1); (0, 0)], [(3, 4); (5, 6)], (1, 2), (2, 1), (0, 0).
  split; [repeat split|]. split; [reflexivity|]. split; [intros r [<-|[<-|[]]]; unfold has_both; cbn; lia|]. split; [reflexivity|].
  intros tt. eexists _, _, (5, 6). split; [reflexivity|]. reflexivity.
Qed.
Print Assumptions C85_dict_specials_compared_refuted.
(** ... and a special code of the dict without records makes analysis() raise, however good the bins are. *)
Theorem C85_dict_empty_special_refuted : exists sp t rows bins s1 s2 m,
  laid_out sp (pt_splits t) rows bins [s1; s2] m /\ pt_rows t = BRows rows /\ (forall r, In r bins -> has_both r) /\ counts_ok2 rows /\
  forall tt, snd (tab_step tt (fst (tab_step tt (tab_new sp t) (TBuild true true true))) (TAnalysis true)) = Err ValueError.
Proof.
  exists (SpDict [(1, [XNum (-1)]); (2, [XNum (-2)])]), (mkPT [5] [[1%R]; [2%R]] (BRows [(3, 4); (5, 6); (0, 0); (2, 1); (0, 0)]) None None 0 9 []),
    [(3, 4); (5, 6); (0, 0); (2, 1); (0, 0)], [(3, 4); (5, 6)], (0, 0), (2, 1), (0, 0).
  split; [repeat split|]. split; [reflexivity|]. split; [intros r [<-|[<-|[]]]; unfold has_both; cbn; lia|].
  split; [intros r [<-|[<-|[<-|[<-|[<-|[]]]]]]; cbn; lia|]. intros tt. reflexivity.
Qed.
Print Assumptions C85_dict_empty_special_refuted.

(** Continuous target: analysis() never raises after build(); the quality score it reports is in [0, 1] unless it is NaN, when
    the p-values are. *)
Theorem C85_continuous_quality : forall tt sp t h b outs rows,
  tab_exec tt (tab_new sp t) h = (b, outs) -> t_succeeded t_is_build h outs -> pt_rows t = CRows rows ->
  (forall r, In r rows -> 0 <= r_n r) -> (exists r, In r rows /\ 0 < r_n r) ->
  (forall x y p, tt_cont tt x y = Some p -> (0 <= p <= 1)%R) ->
  forall valid, exists b' pv q, tab_step tt b (TAnalysis valid) = (b', Ok (TVAnalysis (AContinuous pv q))) /\
    forall x, q = Some x -> (0 <= x <= 1)%R.
Proof.
  intros tt sp t h b outs rows H SB T CO (r0 & I0 & P0) P valid. destruct (tab_exec_facts _ _ _ _ _ H) as (A & B & C & _).
  cbn [tab_new tb_sp tb_t tb_built] in A, B, C. assert (BB : tb_built b = true) by (apply C; right; exact SB).
  unfold tab_step. rewrite B, T, BB. cbn [negb]. eexists _, _, _. split; [reflexivity|]. intros x E.
  refine (c_quality_range _ _ _ CO _ P E).
  assert (G : forall y, In y (map r_n rows) -> 0 <= y). { intros y K. apply in_map_iff in K. destruct K as (s & <- & J). now apply CO. }
  destruct (zsum_ge _ G) as [_ Q]. specialize (Q _ (in_map r_n _ _ I0)). lia.
Qed.
Print Assumptions C85_continuous_quality.

(** ** Histories of calls *)
(** analysis() and the statistics raise NotFittedError exactly until a build() succeeded, quality_score exactly until an analysis()
    succeeded; a statistic, once available, is the one computed by the fit. The continuous table has neither statistics nor
    quality_score: AttributeError, always. *)
Theorem C85_before_build : forall tt sp t h b outs, tab_exec tt (tab_new sp t) h = (b, outs) ->
  (forall valid, snd (tab_step tt b (TAnalysis valid)) = Err NotFitted <-> ~ t_succeeded t_is_build h outs) /\
  (is_binary t -> 
     (forall i, snd (tab_step tt b (TStatistic i)) = Err NotFitted <-> ~ t_succeeded t_is_build h outs) /\
     (forall i r, t_succeeded t_is_build h outs -> nth_error (pt_metrics t) i = Some r -> snd (tab_step tt b (TStatistic i)) = Ok (TVNumber r)) /\
     (snd (tab_step tt b TQuality) = Err NotFitted <-> ~ t_succeeded t_is_analysis h outs)) /\
  (is_continuous t -> (forall i, snd (tab_step tt b (TStatistic i)) = Err OtherError) /\ snd (tab_step tt b TQuality) = Err OtherError).
Proof.
  intros tt sp t h b outs H. destruct (tab_exec_facts _ _ _ _ _ H) as (A & B & C & D). cbn [tab_new tb_sp tb_t tb_built tb_quality] in A, B, C, D.
  assert (BB : tb_built b = true <-> t_succeeded t_is_build h outs). { rewrite C. split; [intros [K|K]; [discriminate K|exact K]|tauto]. }
  split; [|split].
  - intros valid. unfold tab_step. rewrite B, <- BB. destruct (pt_rows t) as [l|l].
    + destruct (tb_built b); cbn [negb]; [|cbn [snd]; split; [intros _ X; discriminate X|reflexivity]].
      split; [|intros X; now destruct X]. destruct valid; cbn [negb]; [|discriminate].
      unfold b_cramer. destruct (2 <=? _)%nat; [|discriminate]. unfold chi2_cramer_v, chi2_contingency. destruct (_ || _)%bool; discriminate.
    + destruct (tb_built b); cbn [negb snd].
      * split; [discriminate|intros X; now destruct X].
      * split; [intros _ X; discriminate X|reflexivity].
  - intros BN. pose proof BN as [l T]. unfold tab_step. rewrite B, T. split; [|split].
    + intros i. cbn [snd]. rewrite <- BB. destruct (tb_built b); cbn [negb].
      * split; [|intros X; now destruct X]. destruct (nth_error _ i); discriminate.
      * split; [intros _ X; discriminate X|reflexivity].
    + intros i r S E. apply BB in S. cbn [snd]. rewrite S, E. reflexivity.
    + cbn [snd]. specialize (D BN). assert (Q : tb_quality b <> None <-> t_succeeded t_is_analysis h outs). { rewrite D. split; [intros [K|K]; [now destruct K|exact K]|tauto]. }
      rewrite <- Q. destruct (tb_quality b); split; try congruence; try discriminate; intros X; exfalso; apply X; discriminate.
  - intros [l T]. unfold tab_step. rewrite B, T. split; reflexivity.
Qed.
Print Assumptions C85_before_build.

(** Every answer depends only on the fitted data, not on the calls made before, once the same things are available. *)
Theorem C85_history_free : forall tt sp t h1 b1 o1 h2 b2 o2,
  tab_exec tt (tab_new sp t) h1 = (b1, o1) -> tab_exec tt (tab_new sp t) h2 = (b2, o2) ->
  (forall x y z, snd (tab_step tt b1 (TBuild x y z)) = snd (tab_step tt b2 (TBuild x y z))) /\
  (t_succeeded t_is_build h1 o1 -> t_succeeded t_is_build h2 o2 ->
     (forall v, snd (tab_step tt b1 (TAnalysis v)) = snd (tab_step tt b2 (TAnalysis v))) /\
     (forall i, snd (tab_step tt b1 (TStatistic i)) = snd (tab_step tt b2 (TStatistic i)))).
Proof.
  intros tt sp t h1 b1 o1 h2 b2 o2 H1 H2. destruct (tab_exec_facts _ _ _ _ _ H1) as (A1 & B1 & C1 & _), (tab_exec_facts _ _ _ _ _ H2) as (A2 & B2 & C2 & _).
  cbn [tab_new tb_sp tb_t tb_built] in *. split.
  - intros x y z. unfold tab_step. rewrite A1, A2, B1, B2. destruct x, y; try reflexivity. cbn [negb].
    destruct (pt_rows t); [destruct (build_bin _ _ _ _ _)|destruct (build_cont _ _ _ _ _)]; reflexivity.
  - intros S1 S2. assert (X1 : tb_built b1 = true) by (apply C1; now right). assert (X2 : tb_built b2 = true) by (apply C2; now right). split.
    + intros v. unfold tab_step. rewrite A1, A2, B1, B2, X1, X2. cbn [negb]. destruct (pt_rows t); [|reflexivity]. destruct v; cbn [negb]; [|reflexivity].
      destruct (b_cramer l); reflexivity.
    + intros i. unfold tab_step. rewrite B1, B2, X1, X2. destruct (pt_rows t); reflexivity.
Qed.
Print Assumptions C85_history_free.

Definition analysed (tt : ttests) (b : ptab) : Prop := forall x, tb_quality b = Some x ->
  tb_built b = true /\ exists l v, pt_rows (tb_t b) = BRows l /\ b_cramer l = Ok v /\ x = b_quality (tt_bin tt) (table_iv (tb_t b)) l.
Lemma exec_analysed tt h : forall b0 b outs, tab_exec tt b0 h = (b, outs) -> analysed tt b0 -> analysed tt b.
Proof.
  induction h as [|c h IH]; intros b0 b outs H I; [injection H as <- _; exact I|]. apply tab_exec_cons in H. destruct H as (b1 & v & l & ST & E & _).
  refine (IH _ _ _ E _). clear IH E h. unfold tab_step in ST. destruct c as [dok tok tot|valid|i|].
  - destruct dok; cbn [negb] in ST; [|injection ST as <- _; exact I]. destruct tok; cbn [negb] in ST; [|injection ST as <- _; exact I].
    destruct (match pt_rows (tb_t b0) with BRows _ => _ | CRows _ => _ end); injection ST as <- _; [|exact I].
    intros x X. cbn [tb_quality tb_built tb_t] in *. destruct (I x X) as [_ W]. split; [reflexivity|exact W].
  - destruct (pt_rows (tb_t b0)) as [rows|rows] eqn:T.
    + destruct (tb_built b0); cbn [negb] in ST; [|injection ST as <- _; exact I]. destruct valid; cbn [negb] in ST; [|injection ST as <- _; exact I].
      destruct (b_cramer rows) as [w|k] eqn:W; injection ST as <- _; [|exact I]. intros x X. cbn [tb_quality tb_built tb_t] in *. injection X as <-.
      split; [reflexivity|]. exists rows, w. split; [exact T|]. split; [exact W|reflexivity].
    + destruct (tb_built b0); cbn [negb] in ST; injection ST as <- _; exact I.
  - destruct (pt_rows (tb_t b0)) eqn:T; injection ST as <- _; exact I.
  - destruct (pt_rows (tb_t b0)) eqn:T; injection ST as <- _; exact I.
Qed.
(** The rows of the reported quality score: quality_score is that of the last successful analysis(). *)
Theorem C85_quality_of_analysis : forall tt sp t h b outs q, tab_exec tt (tab_new sp t) h = (b, outs) ->
  snd (tab_step tt b TQuality) = Ok (TVNumber q) ->
  exists v pv, snd (tab_step tt b (TAnalysis true)) = Ok (TVAnalysis (ABinary v pv q)).
Proof.
  intros tt sp t h b outs q H Q. assert (G : analysed tt b) by (refine (exec_analysed _ _ _ _ _ H _); intros x X; discriminate X).
  unfold tab_step in Q. destruct (pt_rows (tb_t b)) as [l|l] eqn:T; [|discriminate Q]. cbn [snd] in Q.
  destruct (tb_quality b) as [x|] eqn:X; [|discriminate Q]. injection Q as ->. destruct (G q X) as (BB & l' & v & T' & W & ->).
  rewrite T in T'. injection T' as <-. exists v, (b_pvalues (tt_bin tt) l). unfold tab_step. rewrite T, BB, W. reflexivity.
Qed.
Print Assumptions C85_quality_of_analysis.

(** ** After a fit *)
(** The table of the last fit can always be built, when the inner binning has one row per bin and the regression one polynomial
    (of n coefficients) per bin; and if every record of the fit has a target and belongs to one row, the Totals row counts every
    record exactly once. *)
Theorem C85_build_after_fit : forall e est h o0 outs d lb ub check o n tt,
  pexec e (pnew est) h = (o0, outs) -> pstep e o0 (PFit d lb ub check) = (o, Ok PVNone) ->
  inner_counts e -> (forall d p s lb ub st c, pe_regress e d p s lb ub = Ok (st, c) -> coef_of s c n) ->
  exists t, p_answer e o PTable = Ok (PVTable (Some t)) /\
    forall hh b oo totals, tab_exec tt (tab_new (pe_special e) t) hh = (b, oo) ->
      exists b' f, tab_step tt b (TBuild true true totals) = (b', Ok (TVFrame f)) /\ length (fr_coef f) = n /\
        (totals = true -> one_row_each (pe_special e) d ->
         match pe_kind e with
         | PWBinary => fr_totals f = Some (TotBin (Z.of_nat (length (pd_recs d))) (n_where nonevent d) (n_where (fun r => negb (nonevent r)) d))
         | PWContinuous => exists s mn mx z, fr_totals f = Some (TotCont (Z.of_nat (length (pd_recs d))) s mn mx z)
         end).
Proof.
  intros e est h o0 outs d lb ub check o n tt H F IC RC.
  destruct (C83_table_of_the_last_fit _ _ _ _ _ _ _ _ _ _ H F) as (pred & i & st & c & t & _ & HI & HR & HT & _ & _ & HS & HC & HK).
  exists t. split; [exact HT|]. intros hh b oo totals X. specialize (IC _ _ HI). specialize (RC _ _ _ _ _ _ _ HR).
  assert (CO : coef_of (pt_splits t) (pt_coef t) n) by (rewrite HS, HC; exact RC).
  destruct (pe_kind e).
  - destruct HK as (l & s & E1 & E2 & E3 & E4). rewrite E1 in IC. destruct IC as (IL & _ & I0 & I1).
    remember (n_where (fun r => is_missing r && nonevent r) d, n_where (fun r => is_missing r && negb (nonevent r)) d) as m eqn:Em.
    destruct (C85_binary_build tt (pe_special e) t hh b oo _ l s m n totals X E2) as (b' & f & Y & _ & _ & LN & _ & TT & _).
    + split; [reflexivity|]. split; [now rewrite HS|exact E3].
    + exact CO.
    + exists b', f. split; [exact Y|]. split; [exact LN|]. intros Ht OR. rewrite (TT Ht).
      assert (Fs : zsum (map fst (l ++ s ++ [m])) = n_where nonevent d).
      { rewrite !map_app, !zsum_app, I0. change (Z.of_nat (length (filter (fun xy => snd xy =? 0) (clean_pairs e d)))) with (cnt (fun xy => (fun z => z =? 0) (snd xy)) (clean_pairs e d)).
        rewrite clean_cnt. rewrite (seq_of_nth s fst (fun j => cnt (fun r => in_special_row (pe_special e) j r && nonevent r) (pd_recs d))).
        2:{ intros j [ne ev] J. exact (proj1 (E4 j ne ev J)). }
        rewrite E3, Em. cbn [map fst]. change (zsum [n_where (fun r => is_missing r && nonevent r) d]) with (cnt (fun r => is_missing r && nonevent r) (pd_recs d) + 0).
        change (n_where nonevent d) with (cnt nonevent (pd_recs d)).
        rewrite <- (cnt_partition (fun r => k_clean (pe_special e) (to_krec r)) is_missing nonevent (in_special_row (pe_special e)) (seq 0 (special_rows_count (pe_special e)))) by (intros r; now apply one_row).
        rewrite (cnt_ext (fun r => k_clean (pe_special e) (to_krec r) && match snd r with Some y => y =? 0 | None => 0 =? 0 end) (fun r => k_clean (pe_special e) (to_krec r) && nonevent r)); [lia|].
        intros r J. destruct (OR r J) as [T0 _]. unfold nonevent. destruct (snd r); [reflexivity|contradiction T0; reflexivity]. }
      assert (Ss : zsum (map snd (l ++ s ++ [m])) = n_where (fun r => negb (nonevent r)) d).
      { rewrite !map_app, !zsum_app, I1. change (Z.of_nat (length (filter (fun xy => negb (snd xy =? 0)) (clean_pairs e d)))) with (cnt (fun xy => (fun z => negb (z =? 0)) (snd xy)) (clean_pairs e d)).
        rewrite clean_cnt. rewrite (seq_of_nth s snd (fun j => cnt (fun r => in_special_row (pe_special e) j r && negb (nonevent r)) (pd_recs d))).
        2:{ intros j [ne ev] J. exact (proj2 (E4 j ne ev J)). }
        rewrite E3, Em. cbn [map snd]. change (zsum [n_where (fun r => is_missing r && negb (nonevent r)) d]) with (cnt (fun r => is_missing r && negb (nonevent r)) (pd_recs d) + 0).
        change (n_where (fun r => negb (nonevent r)) d) with (cnt (fun r => negb (nonevent r)) (pd_recs d)).
        rewrite <- (cnt_partition (fun r => k_clean (pe_special e) (to_krec r)) is_missing (fun r => negb (nonevent r)) (in_special_row (pe_special e)) (seq 0 (special_rows_count (pe_special e)))) by (intros r; now apply one_row).
        rewrite (cnt_ext (fun r => k_clean (pe_special e) (to_krec r) && match snd r with Some y => negb (y =? 0) | None => negb (0 =? 0) end) (fun r => k_clean (pe_special e) (to_krec r) && negb (nonevent r))); [lia|].
        intros r J. destruct (OR r J) as [T0 _]. unfold nonevent. destruct (snd r); [reflexivity|contradiction T0; reflexivity]. }
      rewrite Fs, Ss. f_equal. f_equal.
      rewrite <- (map_ext b_count (fun r => fst r + snd r)) by (intros r; unfold b_count; lia). rewrite <- b_total_eq. unfold b_total. rewrite Fs, Ss.
      unfold n_where. clear. induction (pd_recs d) as [|r rs IH]; [reflexivity|]. cbn [filter length]. destruct (nonevent r); cbn [negb length]; lia.
  - destruct HK as (_ & _ & l & s & m & E1 & E2 & M & _ & E3 & E4). rewrite E1 in IC. destruct IC as (IL & _ & I0).
    destruct (C85_continuous_build tt (pe_special e) t hh b oo _ l s m n totals X E2) as (b' & f & Y & _ & _ & LN & _ & _ & TT & _).
    + split; [reflexivity|]. split; [now rewrite HS|exact E3].
    + exact CO.
    + exists b', f. split; [exact Y|]. split; [exact LN|]. intros Ht OR. destruct (TT Ht) as (mn & mx & T0 & _). rewrite T0.
      exists (zsum (somes (map r_sum (l ++ s ++ [m])))), mn, mx, (zsum (map r_zero (l ++ s ++ [m]))). f_equal. f_equal.
      rewrite !map_app, !zsum_app, I0. cbn [map]. rewrite M.
      rewrite (seq_of_nth s r_n (fun j => cnt (fun r => in_special_row (pe_special e) j r && true) (pd_recs d))).
      2:{ intros j row J. rewrite (E4 j row J). unfold n_where. apply (cnt_ext (in_special_row (pe_special e) j)). intros r _. now rewrite andb_true_r. }
      rewrite E3. change (zsum [n_where is_missing d]) with (cnt is_missing (pd_recs d) + 0).
      pose proof (clean_cnt e d (fun _ => true)) as CC. pose proof (cnt_partition (fun r => k_clean (pe_special e) (to_krec r)) is_missing (fun _ => true) (in_special_row (pe_special e)) (seq 0 (special_rows_count (pe_special e))) (pd_recs d)
        (fun r J => one_row _ _ r OR J)) as CP.
      assert (TR : forall A (xs : list A), cnt (fun _ => true) xs = Z.of_nat (length xs)). { intros A xs. unfold cnt. f_equal. induction xs as [|a xs IH]; [reflexivity|]. cbn. now rewrite IH. }
      rewrite TR in CC, CP. rewrite CC.
      rewrite (cnt_ext is_missing (fun r => is_missing r && true)) by (intros r _; now rewrite andb_true_r).
      rewrite (cnt_ext (fun r => k_clean (pe_special e) (to_krec r) && match snd r with Some _ => true | None => true end) (fun r => k_clean (pe_special e) (to_krec r) && true)) by (intros r _; destruct (snd r); reflexivity).
      lia.
Qed.
Print Assumptions C85_build_after_fit.

(** The hypotheses are met. *)
Example C85_hyps_met : exists tt sp t rows h b outs bins s m,
  pt_rows t = BRows rows /\ laid_out sp (pt_splits t) rows bins [s] m /\ coef_of (pt_splits t) (pt_coef t) 2 /\ counts_ok2 rows /\
  (forall r, In r bins -> has_both r) /\ (1 <= special_row_count sp)%nat /\ (exists r, In r rows /\ 0 < fst r + snd r) /\
  tab_exec tt (tab_new sp t) h = (b, outs) /\ t_succeeded t_is_build h outs /\ ~ t_succeeded t_is_analysis h outs /\
  (forall x y, 0 <= tt_bin tt x y <= 1)%R /\ (0 <= table_iv t)%R /\
  one_row_each (SpDict [(1, [XNum (-1)]); (2, [XNum (-2)])]) (mkPD [(XNum 4, Some 1); (XNum (-2), Some 0); (XNaN, Some 1)] false).
Proof.
  exists (mkTT (fun _ _ => 0%R) (fun _ _ => None)), SpNone, (mkPT [5] [[1%R; 2%R]; [2%R; 3%R]] (BRows [(3, 4); (5, 6); (1, 2); (0, 0)]) None None 0 9 [1%R; 2%R]),
    [(3, 4); (5, 6); (1, 2); (0, 0)], [TBuild true true true]. eexists _, _, [(3, 4); (5, 6)], (1, 2), (0, 0).
  split; [reflexivity|]. split; [repeat split|]. split; [split; [reflexivity|intros c [<-|[<-|[]]]; reflexivity]|].
  split; [intros r [<-|[<-|[<-|[<-|[]]]]]; cbn; lia|]. split; [intros r [<-|[<-|[]]]; unfold has_both; cbn; lia|]. split; [cbn; lia|].
  split; [exists (3, 4); split; [left; reflexivity|cbn; lia]|]. split; [reflexivity|].
  split; [exists 0%nat; eexists _, _; split; [reflexivity|]; split; [eexists _, _, _; reflexivity|reflexivity]|].
  split; [intros (i & c & v & K & [w ->] & _); destruct i as [|[|i]]; discriminate K|]. split; [cbn; intros; lra|]. split; [cbn; lra|].
  intros r I. cbn in I. destruct I as [<-|[<-|[<-|[]]]]; (split; [discriminate|]); (split; [intros j H|intros j k H1 H2]).
  all: try (destruct j as [|[|[|j]]]; try reflexivity; discriminate H).
  all: destruct j as [|[|[|j]]]; try discriminate H1; destruct k as [|[|[|k]]]; try discriminate H2; reflexivity.
Qed.
