(** Property theorems for the multiclass binning table and for the chi-square statistics of analysis() (C70). *)
From Coq Require Import List ZArith Bool Arith Lia Sorting Reals Lra.
From Verif Require Import Model.Arr Model.Core Model.CP Model.Cat Model.Multi Model.Metrics Model.MultiT Model.MultiTable
  Spec.CoreSpec Spec.CatSpec Spec.CPSpec Spec.CPFitSpec Spec.MultiSpec Spec.MetricsSpec Spec.MultiTableSpec
  Proofs.ArrP Proofs.MetricsP Proofs.MetricsQ Proofs.MultiP Proofs.MultiTableP Proofs.MultiTableQ Proofs.MultiTableR Proofs.MultiTableS Proofs.CatFinal.
Import ListNotations.
Open Scope R_scope.

(** C70: the JS of the multiclass table is the generalised Jensen-Shannon divergence of the distributions of the
    classes over the rows; it is between 0 and log(n_classes), and 0 exactly when all classes have the same
    distribution. *)
Theorem C70_js : forall rows cols, table_ok rows cols ->
  mb_js cols = doc_js rows cols /\ 0 <= mb_js cols <= ln (INR (length cols)) /\
  (mb_js cols = 0 <-> forall c c' k, In c cols -> In c' cols -> (k < rows)%nat -> share c k = share c' k).
Proof. intros rows cols H. split; [exact (js_doc _ _ H)|exact (js_range _ _ H)]. Qed.
Print Assumptions C70_js.

(** Merging rows never increases the JS. *)
Theorem C70_merging_decreases_js : forall rows cols groups, table_ok rows cols -> concat groups = seq 0 rows ->
  mb_js (merge_cols groups cols) <= mb_js cols.
Proof. exact js_merge. Qed.
Print Assumptions C70_merging_decreases_js.

(** Count, Count (%) and Event_rate columns. *)
Lemma seq_records rows cols : table_ok rows cols -> mb_records cols = map (row_sum cols) (seq 0 rows) /\ mb_total cols = grand cols.
Proof.
  intros H. unfold mb_total, mb_records. rewrite (t_rows _ _ H). split; [reflexivity|].
  rewrite <- (oc_grand _ _ H). apply rsum_ext. intros k _. symmetry. apply oc_row.
Qed.
Lemma grand_pos0 rows cols : table_ok rows cols -> 0 < grand cols.
Proof.
  intros H. unfold grand. apply IZR_lt. apply zsum_pos; [|intros E; apply map_eq_nil in E; now apply H].
  intros x Hx. apply in_map_iff in Hx as (c & <- & Hc). now apply H.
Qed.
Lemma row_sum_nonneg rows cols k : table_ok rows cols -> 0 <= row_sum cols k.
Proof.
  intros H. rewrite <- oc_row. apply rsum_nonneg. intros x Hx. apply in_map_iff in Hx as (c & <- & Hc). now apply (oc_nonneg _ _ H).
Qed.
Theorem C70_columns : forall rows cols, table_ok rows cols ->
  mb_total cols = grand cols /\ 0 < grand cols /\
  mb_shares cols = map (fun k => row_sum cols k / grand cols) (seq 0 rows) /\ rsum (mb_shares cols) = 1 /\
  (forall k, 0 < row_sum cols k ->
     (forall c, (c < length cols)%nat -> mb_rate cols k c = IZR (at_row k (nth c cols [])) / row_sum cols k /\ 0 <= mb_rate cols k c <= 1) /\
     rsum (map (mb_rate cols k) (seq 0 (length cols))) = 1) /\
  rsum (map (mb_total_rate cols) (seq 0 (length cols))) = 1.
Proof.
  intros rows cols H. destruct (seq_records _ _ H) as [E1 E2]. pose proof (grand_pos0 _ _ H) as G.
  split; [exact E2|]. split; [exact G|]. split; [unfold mb_shares; rewrite E1, E2, map_map; reflexivity|]. split; [|split].
  - unfold mb_shares. rewrite E2. change (fun n => n / grand cols) with (fun n => n * / grand cols). rewrite rsum_scale.
    change (rsum (mb_records cols)) with (mb_total cols). rewrite E2. field. lra.
  - intros k Hk.
    assert (Ev : forall c, (c < length cols)%nat -> mb_rate cols k c = IZR (at_row k (nth c cols [])) / row_sum cols k).
    { intros c Hc. unfold mb_rate, mt_cell. fold (at_row k (nth c cols [])). destruct (Z.ltb_spec 0 (at_row k (nth c cols []))) as [L|L]; [reflexivity|].
      assert (0 <= oc k (nth c cols [])) by (apply (oc_nonneg _ _ H); now apply nth_In). apply le_IZR in H0.
      replace (at_row k (nth c cols [])) with 0%Z by lia. unfold Rdiv. ring. }
    split.
    + intros c Hc. split; [now apply Ev|]. rewrite (Ev c Hc). assert (Hin : In (nth c cols []) cols) by (now apply nth_In).
      pose proof (oc_nonneg _ _ H k _ Hin) as P. unfold oc in P.
      assert (Q : oc k (nth c cols []) <= rsum (map (oc k) cols)) by (apply (rsum_ge_term (oc k)); [intros; now apply (oc_nonneg _ _ H)|exact Hin]).
      rewrite oc_row in Q. unfold oc in Q. split.
      * apply Rmult_le_pos; [exact P|left; now apply Rinv_0_lt_compat].
      * apply Rmult_le_reg_r with (row_sum cols k); [exact Hk|]. unfold Rdiv. rewrite Rmult_assoc, Rinv_l by lra. lra.
    + rewrite (rsum_ext _ (fun c => (fun col => oc k col * / row_sum cols k) (nth c cols []))).
      * rewrite (index_sum (fun col => oc k col * / row_sum cols k)), rsum_mult, oc_row. field. lra.
      * intros c Hc. apply in_seq in Hc. rewrite Ev by lia. reflexivity.
  - unfold mb_total_rate, mb_total_event, mt_event. rewrite E2.
    rewrite (rsum_ext _ (fun c => (fun col => IZR (zsum col) * / grand cols) (nth c cols []))) by reflexivity.
    rewrite (index_sum (fun col => IZR (zsum col) * / grand cols)), rsum_mult.
    replace (rsum (map (fun col => IZR (zsum col)) cols)) with (grand cols) by (unfold grand; rewrite IZR_zsum, map_map; reflexivity). field. lra.
Qed.
Print Assumptions C70_columns.

(** HHI and quality score are in range ([test]: the p-value of scipy's chi-square test). *)
Theorem C70_hhi_quality_range : forall rows cols, table_ok rows cols ->
  1 / INR rows <= mb_hhi cols <= 1 /\ 0 <= mb_hhi_norm cols <= 1 /\
  forall test n_specials, (forall t, 0 <= test t <= 1) -> (2 <= length cols)%nat -> 0 <= mb_quality test n_specials cols <= 1.
Proof.
  intros rows cols H. pose proof (grand_pos0 _ _ H) as G. destruct (C70_columns rows cols H) as (E & _ & Es & S1 & _).
  assert (B : forall x, In x (mb_shares cols) -> 0 <= x <= 1).
  { assert (N : forall x, In x (mb_shares cols) -> 0 <= x).
    { intros x Hx. rewrite Es in Hx. apply in_map_iff in Hx as (k & <- & _). apply Rmult_le_pos; [exact (row_sum_nonneg _ _ k H)|left; now apply Rinv_0_lt_compat]. }
    intros x Hx. split; [now apply N|]. pose proof (rsum_ge_term (fun y => y) (mb_shares cols) x N Hx) as Q. rewrite map_id, S1 in Q. exact Q. }
  destruct (hhi_bounds _ B S1) as [C D]. assert (L : length (mb_shares cols) = rows) by (rewrite Es, map_length, seq_length; reflexivity).
  rewrite L in C. split; [exact C|]. split; [exact D|]. intros test ns Ht Hc.
  unfold mb_quality, multiclass_quality_score. apply quality_bounds.
  - destruct (js_range _ _ H) as [[J _] _]. assert (0 < ln (INR (length cols))) by (rewrite <- ln_1; apply ln_increasing; [lra|]; change 1 with (INR 1); apply lt_INR; lia).
    apply Rmult_le_pos; [exact J|left; now apply Rinv_0_lt_compat].
  - intros p Hp. apply in_map_iff in Hp as (i & <- & _). apply Ht.
  - exact D.
Qed.
Print Assumptions C70_hhi_quality_range.

(** The chi-square statistic is Pearson's; it is >= 0, 0 exactly when rows and columns are independent, and at most
    the number of records times min(rows - 1, columns - 1), so that Cramer's V is in [0, 1]. *)
Theorem C70_chi2 : forall rows cols, table_ok rows cols -> (forall k, (k < rows)%nat -> 0 < row_sum cols k) -> (0 < rows)%nat ->
  chi2_contingency cols = Ok (pearson rows cols) /\ 0 <= pearson rows cols /\ (pearson rows cols = 0 <-> independent rows cols) /\
  pearson rows cols <= grand cols * INR (min (rows - 1) (length cols - 1)) /\
  ((2 <= rows)%nat -> (2 <= length cols)%nat -> exists v, chi2_cramer_v_multi cols = Ok (pearson rows cols, v) /\ 0 <= v <= 1 /\ (v = 0 <-> independent rows cols)).
Proof.
  intros rows cols H Hr Hp. destruct (pearson_facts _ _ H Hr Hp) as (A & B & C & D).
  split; [exact (chi2_value _ _ H Hr Hp)|]. split; [exact A|]. split; [exact B|]. split.
  - assert (L : (1 <= length cols)%nat) by (destruct cols; [destruct H; congruence|cbn; lia]).
    destruct (Nat.min_spec (rows - 1) (length cols - 1)) as [[_ ->]|[_ ->]]; rewrite minus_INR by lia; cbn [INR]; assumption.
  - intros H2 H3. exact (cramer_multi _ _ H Hr Hp H2 H3).
Qed.
Print Assumptions C70_chi2.

(** Merging rows never increases the statistic; with a binary target Cramer's V never increases. *)
Theorem C70_merging_decreases_chi2 : forall rows cols groups,
  table_ok rows cols -> (forall k, (k < rows)%nat -> 0 < row_sum cols k) -> (0 < rows)%nat ->
  concat groups = seq 0 rows -> (forall g, In g groups -> g <> []) ->
  (exists t t', chi2_contingency (merge_cols groups cols) = Ok t /\ chi2_contingency cols = Ok t' /\ t <= t') /\
  (forall nev ev, cols = [nev; ev] -> exists t v t' v',
     chi2_cramer_v (nth 0 (merge_cols groups cols) []) (nth 1 (merge_cols groups cols) []) = Ok (t, v) /\ chi2_cramer_v nev ev = Ok (t', v') /\ v <= v').
Proof.
  intros rows cols groups H Hr Hp Hg Hne. destruct (merge_ok _ _ _ H Hg) as [Hm _]. destruct (pearson_merge _ _ _ H Hr Hp Hg Hne) as [P E].
  pose proof (merge_row_pos rows cols groups Hr Hg Hne) as Hmr.
  assert (Hgn : (0 < length groups)%nat) by (destruct groups; [destruct rows; [lia|discriminate]|cbn; lia]).
  split.
  - exists (pearson (length groups) (merge_cols groups cols)), (pearson rows cols). split; [exact (chi2_value _ _ Hm Hmr Hgn)|]. split; [exact (chi2_value _ _ H Hr Hp)|exact P].
  - intros nev ev ->. cbn [merge_cols map nth] in *.
    destruct (cramer_binary _ _ _ Hm Hmr Hgn) as (v & V & _ & _ & Ev). destruct (cramer_binary _ _ _ H Hr Hp) as (v' & V' & _ & _ & Ev').
    exists (pearson (length groups) (merge_cols groups [nev; ev])), v, (pearson rows [nev; ev]), v'. split; [exact V|]. split; [exact V'|].
    rewrite Ev, Ev', E. pose proof (grand_pos0 _ _ H) as G. apply sqrt_le_1_alt. unfold Rdiv.
    apply Rmult_le_compat_r; [left; now apply Rinv_0_lt_compat|exact P].
Qed.
Print Assumptions C70_merging_decreases_chi2.

(** The table of every multiclass fit with clean records meets these hypotheses, and analysis() never fails in its
    chi-square statistics: Cramer's V of the bins is in [0, 1], is 0 exactly when the classes are equally frequent in
    all bins, and the significance test of every pair of consecutive bins is defined. *)
Theorem C70_multiclass_analysis : forall solver sp fixed user splits0 rs f,
  nondecreasing splits0 -> m_solver_ok solver -> fit_multi solver sp fixed user splits0 rs = Some (Ok f) -> mf_classes f <> [] ->
  table_ok (S (length (mf_splits f)) + n_special sp + 1) (mf_cols f) /\
  mb_metric (n_special sp) (mf_cols f) = S (length (mf_splits f)) /\
  (exists v, mb_cramer_v (n_special sp) (mf_cols f) = Ok v /\ 0 <= v <= 1 /\
     (v = 0 <-> (mf_splits f = [] \/ independent (S (length (mf_splits f))) (mb_clean (n_special sp) (mf_cols f))))) /\
  (forall i, (S i < mb_metric (n_special sp) (mf_cols f))%nat ->
     exists t, chi2_contingency (mb_pair (mb_clean (n_special sp) (mf_cols f)) i) = Ok t /\ 0 <= t).
Proof.
  intros * H1 H2 H3 H4. split; [exact (multi_ok _ _ _ _ _ _ _ H1 H2 H3 H4)|]. split; [exact (multi_metric _ _ _ _ _ _ _ H1 H2 H3 H4)|].
  exact (multi_analysis _ _ _ _ _ _ _ H1 H2 H3 H4).
Qed.
Print Assumptions C70_multiclass_analysis.

(** The same for a binary target with divergence "iv" or "js" (whose refinement leaves no pure prebin). *)
Theorem C70_binary_analysis : forall d solver sp fixed user splits0 xs ys sw f,
  length xs = length ys -> length xs = length sw -> ~ In YNaN ys -> ~ In XNaN (flat_codes sp) -> sp_disjoint sp ->
  nondecreasing splits0 -> solver_ok solver -> (forall w, In w sw -> (0 <= w)%Z) ->
  fit_numerical 1 d solver sp fixed user splits0 xs ys sw = Some (Ok f) -> refines d = true ->
  let m := S (length (f_splits f)) in
  bt_metric (n_special sp) 0 (f_nev f) = m /\
  (f_splits f <> [] -> forall k, (k < m)%nat -> (0 < nth k (f_nev f) 0)%Z /\ (0 < nth k (f_ev f) 0)%Z) /\
  (exists v, bt_cramer_v (n_special sp) 0 (f_nev f) (f_ev f) = Ok v /\ 0 <= v <= 1 /\
     (v = 0 <-> (f_splits f = [] \/ independent m [firstn m (f_nev f); firstn m (f_ev f)]))) /\
  (forall i, (S i < m)%nat -> exists t, chi2_contingency (bt_pair (n_special sp) 0 (f_nev f) (f_ev f) i) = Ok t /\ 0 <= t).
Proof.
  intros * H1 H2 H3 H4 H5 H6 H7 H8 H9 H10 m.
  pose proof (bin_metric _ _ _ _ _ _ _ _ _ _ H1 H2 H3 H4 H5 H6 H7 H8 H9 H10) as M. split; [exact M|]. split.
  - intros Hne k Hk. destruct (bin_pos _ _ _ _ _ _ _ _ _ _ H1 H2 H3 H4 H5 H6 H7 H8 H9 H10 Hne) as [P1 P2].
    destruct (bin_len _ _ _ _ _ _ _ _ _ _ H1 H2 H3 H4 H5 H6 H7 H9 H10) as [L1 L2]. fold m in P1, P2, L1.
    assert (G : forall l, (m <= length l)%nat -> nth k l 0%Z = nth k (firstn m l) 0%Z).
    { intros l Hl. rewrite <- (firstn_skipn m l) at 1. apply app_nth1. rewrite firstn_length. lia. }
    rewrite (G (f_nev f)), (G (f_ev f)) by lia. split; [apply P1|apply P2]; apply nth_In; rewrite firstn_length; lia.
  - destruct (bin_analysis _ _ _ _ _ _ _ _ _ _ H1 H2 H3 H4 H5 H6 H7 H8 H9 H10) as [A B]. rewrite M in B. split; [exact A|exact B].
Qed.
Print Assumptions C70_binary_analysis.

(** The quality score of a fitted multiclass table uses exactly one test per pair of neighbouring bins, on the counts of these two rows. *)
Theorem C70_quality_tests : forall solver sp fixed user splits0 rs f test,
  nondecreasing splits0 -> m_solver_ok solver -> fit_multi solver sp fixed user splits0 rs = Some (Ok f) -> mf_classes f <> [] ->
  mb_quality test (n_special sp) (mf_cols f) =
  binning_quality_score (mb_js (mf_cols f) / ln (INR (length (mf_classes f))))
    (map (fun i => test (map (fun col => [nth i col 0%Z; nth (S i) col 0%Z]) (mf_cols f))) (seq 0 (length (mf_splits f)))) (mb_hhi_norm (mf_cols f)).
Proof.
  intros * H1 H2 H3 H4. pose proof (multi_ok _ _ _ _ _ _ _ H1 H2 H3 H4) as OK. pose proof (multi_metric _ _ _ _ _ _ _ H1 H2 H3 H4) as M.
  unfold mb_quality, multiclass_quality_score. rewrite M. replace (S (length (mf_splits f)) - 1)%nat with (length (mf_splits f)) by lia.
  assert (L : length (mf_cols f) = length (mf_classes f)) by (rewrite (cols_eq _ _ _ _ _ _ _ H1 H2 H3); apply map_length). rewrite L. f_equal.
  apply map_ext_in. intros i Hi. apply in_seq in Hi. f_equal. unfold mb_pair, mb_clean. rewrite M, map_map. apply map_ext_in. intros col Hc.
  destruct OK as (_ & OK). destruct (OK col Hc) as (Lc & _).
  assert (G : forall l, (S i < length l)%nat -> firstn 2 (skipn i l) = [nth i l 0%Z; nth (S i) l 0%Z]).
  { clear. induction i as [|i IH]; intros l Hl.
    - destruct l as [|a [|b l]]; cbn in Hl; [lia|lia|reflexivity].
    - destruct l as [|a l]; cbn in Hl; [lia|]. cbn [skipn]. rewrite IH by lia. reflexivity. }
  rewrite G by (rewrite firstn_length, Lc; lia).
  assert (F : forall k, (k < S (length (mf_splits f)))%nat -> nth k (firstn (S (length (mf_splits f))) col) 0%Z = nth k col 0%Z).
  { intros k Hk. rewrite <- (firstn_skipn (S (length (mf_splits f))) col) at 2. rewrite app_nth1; [reflexivity|]. rewrite firstn_length, Lc. lia. }
  rewrite !F by lia. reflexivity.
Qed.
Print Assumptions C70_quality_tests.

(** A categorical variable with rare categories: the tests and Cramer's V leave out the row of the "others" bin. *)
Theorem C70_others_row_excluded : forall u d solver sp cut order prebinning xs ys sw f,
  (0 < u)%Z -> length xs = length ys -> length xs = length sw -> ~ In YNaN ys -> ~ In XNaN (flat_codes sp) -> sp_disjoint sp ->
  order_ok order -> (forall data, nondecreasing (prebinning data)) -> solver_ok solver ->
  fit_categorical 1 u d solver sp cut order prebinning xs ys sw = Some (Ok f) ->
  bt_metric (n_special sp) (match Cat.cf_others f with [] => 0 | _ => 1 end) (Cat.cf_nev f) = S (length (Cat.cf_splits f)).
Proof.
  intros * H1 H2 H3 H4 H5 H6 H7 H8 H9 H10. destruct (C04_table _ _ _ _ _ _ _ _ _ _ _ (-1)%Z H1 H2 H3 H4 H5 H6 H7 H8 H9 H10) as (L & _).
  unfold bt_metric. rewrite L. unfold bin_categorical. rewrite app_length, map_length, seq_length. destruct (Cat.cf_others f); cbn [length]; lia.
Qed.
Print Assumptions C70_others_row_excluded.

(** The hypotheses are met. *)
Definition mrc (x y : Z) : mrec := {| m_x := XNum x; m_y := Some y |}.
Definition mt_rs : list mrec :=
  [mrc 1 0; mrc 1 1; mrc 2 2; mrc 2 0; mrc 5 0; mrc 5 1; mrc 6 1; mrc 6 2; {| m_x := XNaN; m_y := Some 2%Z |}].
Definition keep_all (cols : list (list Z * list Z)) : list bool := repeat true (match cols with [] => 0 | c :: _ => length (fst c) end).
Lemma keep_all_ok : m_solver_ok keep_all.
Proof.
  intros cols n Hn Hc Hl. unfold keep_all. destruct cols as [|c l]; [congruence|]. destruct (Hl c (or_introl eq_refl)) as [-> _].
  rewrite repeat_length. split; [reflexivity|]. destruct n as [|n]; [lia|]. clear. induction n; [reflexivity|]. exact IHn.
Qed.
Example C70_hyps_met : exists f, fit_multi keep_all SpNone None None [4]%Z mt_rs = Some (Ok f) /\ mf_classes f <> [] /\
  mf_cols f = [[2; 1; 0; 0]; [1; 2; 0; 0]; [1; 1; 0; 1]]%Z /\ table_ok 4 (mf_cols f) /\ concat [[0]; [1; 2; 3]]%nat = seq 0 4.
Proof.
  eexists. split; [vm_compute; reflexivity|]. cbn [mf_classes mf_cols]. split; [discriminate|]. split; [reflexivity|]. split; [|reflexivity].
  split; [discriminate|]. intros col Hc. cbn [In] in Hc.
  repeat (destruct Hc as [<-|Hc]; [split; [reflexivity|]; split; [intros x Hx; cbn [In] in Hx; intuition lia|cbn; lia]|]). destruct Hc.
Qed.
Definition all_bins (a b : list Z) : list bool := repeat true (length a).
Lemma all_bins_ok : solver_ok all_bins.
Proof.
  intros a b _ H. unfold all_bins. rewrite repeat_length. split; [reflexivity|]. destruct (length a) as [|n]; [lia|]. clear. induction n; [reflexivity|]. exact IHn.
Qed.
Example C70_binary_hyps_met : exists f,
  fit_numerical 1 IV all_bins SpNone None None [4]%Z (map XNum [1; 2; 3; 5; 6]%Z) [Y0; Y1; Y0; Y1; Y0] [1; 1; 1; 1; 1]%Z = Some (Ok f) /\
  refines IV = true /\ f_splits f = [4]%Z /\ f_nev f = [2; 1; 0; 0]%Z.
Proof. eexists. split; [vm_compute; reflexivity|]. split; [reflexivity|]. split; reflexivity. Qed.

(** The divergence is not decoration: without the refinement ("hellinger", "triangular") and with a solver that keeps
    two neighbouring bins without events, the significance test of that pair is undefined and analysis() raises
    ValueError. (The code asks the optimiser for at least one event and one non-event per bin in that case.) *)
Theorem C70_pure_neighbours : exists f,
  fit_numerical 1 HELLINGER all_bins SpNone None None [4; 7]%Z (map XNum [1; 5; 8; 9]%Z) [Y0; Y0; Y1; Y0] [1; 1; 1; 1]%Z = Some (Ok f) /\
  solver_ok all_bins /\ chi2_contingency (bt_pair 1 0 (f_nev f) (f_ev f) 0) = Err ValueError.
Proof. eexists. split; [vm_compute; reflexivity|]. split; [exact all_bins_ok|]. reflexivity. Qed.
Print Assumptions C70_pure_neighbours.
