(** Property theorems about the binary binning table, divergences and WoE transforms (C18-C23). *)
From Coq Require Import List ZArith Bool Arith Reals Lra Lia Permutation Sorting.
From Verif Require Import Model.Arr Model.Core Model.Cat Model.Metrics Spec.CoreSpec Spec.CatSpec Spec.MetricsSpec
  Proofs.MetricsP Proofs.MetricsQ Proofs.MetricsFinal.
Import ListNotations.
Open Scope R_scope.

(** C18: the table columns. *)
Theorem C18_table_columns : forall nev ev,
  length nev = length ev -> counts_ok nev -> counts_ok ev -> 0 < t_nev nev -> 0 < t_ev ev ->
  IZR (zsum (n_records nev ev)) = IZR (zsum nev) + IZR (zsum ev) /\
  rsum (p_records nev ev) = 1 /\ (forall p, In p (p_records nev ev) -> 0 <= p <= 1) /\
  0 <= t_event_rate nev ev <= 1 /\
  forall k e n, nth_error nev k = Some n -> nth_error ev k = Some e ->
    exists er w, nth_error (event_rate nev ev) k = Some er /\ nth_error (woe nev ev) k = Some w /\ 0 <= er <= 1 /\
    ((0 < e)%Z /\ (0 < n)%Z -> er = IZR e / (IZR e + IZR n) /\
        w = ln ((IZR n / IZR (zsum nev)) / (IZR e / IZR (zsum ev)))) /\
    (~ ((0 < e)%Z /\ (0 < n)%Z) -> er = 0 /\ w = 0).
Proof.
  intros nev ev Hl Hn He H1 H2. split; [exact (n_records_sum nev ev Hl)|].
  destruct (table_shares nev ev Hl Hn He H1 H2) as [A B]. split; [exact A|]. split; [exact B|]. split.
  - unfold t_event_rate. split; [apply Rmult_le_pos; [lra|left; apply Rinv_0_lt_compat; lra]|].
    apply Rmult_le_reg_r with (t_nev nev + t_ev ev); [lra|]. unfold Rdiv. rewrite Rmult_assoc, Rinv_l by lra. lra.
  - intros k e n Hkn Hke. apply (table_row nev ev k e n Hl H1 H2 Hkn Hke).
    + apply He. eapply nth_error_In; eauto.
    + apply Hn. eapply nth_error_In; eauto.
Qed.
Print Assumptions C18_table_columns.
Example C18_hyps_met : let nev := [3; 2; 0]%Z in let ev := [1; 4; 2]%Z in
  length nev = length ev /\ counts_ok nev /\ counts_ok ev /\ 0 < t_nev nev /\ 0 < t_ev ev.
Proof.
  cbv zeta. split; [reflexivity|]. split; [intros c Hc; cbn in Hc; lia|]. split; [intros c Hc; cbn in Hc; lia|].
  unfold t_nev, t_ev. cbn. split; lra.
Qed.
(** A row holding only events is displayed with event rate 0 (instead of 1): a row's event rate is not
    events / records in general. *)
Theorem C18_pure_event_row_refuted : exists nev ev k e n,
  0 < t_nev nev /\ 0 < t_ev ev /\ nth_error nev k = Some n /\ nth_error ev k = Some e /\ (0 < e + n)%Z /\
  IZR e / IZR (e + n) = 1 /\ nth_error (event_rate nev ev) k = Some 0.
Proof.
  exists [1; 0]%Z, [1; 2]%Z, 1%nat, 2%Z, 0%Z. unfold t_nev, t_ev. cbn. repeat split; try lra; try lia.
Qed.
Print Assumptions C18_pure_event_row_refuted.

(** C19: the reported divergences are >= 0, vanish exactly when the two distributions agree on the rows
    with both classes, and JS <= ln 2, Hellinger <= 1, triangular <= 2. *)
Theorem C19_divergences : forall rows,
  let nev := nevs rows in let ev := evs rows in
  counts_ok nev -> counts_ok ev -> 0 < t_nev nev -> 0 < t_ev ev ->
  let same := forall r, In r rows -> both_classes r -> IZR (fst r) / IZR (zsum ev) = IZR (snd r) / IZR (zsum nev) in
  (0 <= table_iv nev ev /\ (table_iv nev ev = 0 <-> same)) /\
  (0 <= table_js nev ev <= ln 2 /\ (table_js nev ev = 0 <-> same)) /\
  (0 <= table_hellinger nev ev <= 1 /\ (table_hellinger nev ev = 0 <-> same)) /\
  (0 <= table_triangular nev ev <= 2 /\ (table_triangular nev ev = 0 <-> same)).
Proof.
  intros rows nev ev Hn He H1 H2 same.
  destruct (table_div_nonneg jeffrey1 rows jeffrey_div H2 H1) as [A1 A2].
  destruct (table_div_nonneg js1 rows js_div H2 H1) as [B1 B2].
  destruct (table_div_nonneg hellinger1 rows hellinger_div H2 H1) as [C1 C2].
  destruct (table_div_nonneg triangular1 rows triangular_div H2 H1) as [D1 D2].
  assert (Hln2 : 0 <= ln 2) by (rewrite <- ln_1; left; apply ln_increasing; lra).
  assert (U1 := table_div_upper js1 (1/2 * ln 2) rows ltac:(lra) H2 H1 He Hn
     ltac:(intros x y Hx Hy; assert (P := js_upper x y Hx Hy); lra)).
  assert (U2 := table_div_upper hellinger1 (1/2) rows ltac:(lra) H2 H1 He Hn
     ltac:(intros x y Hx Hy; assert (P := hellinger_upper x y Hx Hy); lra)).
  assert (U3 := table_div_upper triangular1 1 rows ltac:(lra) H2 H1 He Hn
     ltac:(intros x y Hx Hy; assert (P := triangular_upper x y Hx Hy); lra)).
  unfold table_iv, table_js, table_hellinger, table_triangular.
  split; [split; assumption|]. split; [split; [subst nev ev; lra|assumption]|]. split; [split; [subst nev ev; lra|assumption]|].
  split; [subst nev ev; lra|assumption].
Qed.
Print Assumptions C19_divergences.

(** C20: merging rows that contain both classes never increases a divergence; other rows are untouched
    (singleton groups). *)
Theorem C20_merging_decreases_divergence : forall groups,
  let fine := concat groups in let coarse := merge_rows groups in
  0 < t_nev (nevs fine) -> 0 < t_ev (evs fine) ->
  (forall g, In g groups -> (exists r, g = [r]) \/ (g <> [] /\ forall r, In r g -> both_classes r)) ->
  table_iv (nevs coarse) (evs coarse) <= table_iv (nevs fine) (evs fine) /\
  table_js (nevs coarse) (evs coarse) <= table_js (nevs fine) (evs fine) /\
  table_hellinger (nevs coarse) (evs coarse) <= table_hellinger (nevs fine) (evs fine) /\
  table_triangular (nevs coarse) (evs coarse) <= table_triangular (nevs fine) (evs fine).
Proof.
  intros groups fine coarse H1 H2 Hg.
  split; [|split; [|split]]; apply table_div_merge; auto;
    [apply jeffrey_div|apply js_div|apply hellinger_div|apply triangular_div].
Qed.
Print Assumptions C20_merging_decreases_divergence.
Example C20_hyps_met : let groups := [[(1, 3); (2, 2)]; [(0, 1)]; [(4, 1)]]%Z in
  0 < t_nev (nevs (concat groups)) /\ 0 < t_ev (evs (concat groups)) /\ merge_rows groups = [(3, 5); (0, 1); (4, 1)]%Z /\
  (forall g, In g groups -> (exists r, g = [r]) \/ (g <> [] /\ forall r, In r g -> both_classes r)).
Proof.
  cbn. unfold t_nev, t_ev. cbn. split; [lra|]. split; [lra|]. split; [reflexivity|].
  intros g [<-|[<-|[<-|[]]]]; [right|left; eexists; reflexivity|left; eexists; reflexivity].
  split; [discriminate|]. intros r [<-|[<-|[]]]; split; cbn; lia.
Qed.
(** With pure rows (possible when the divergence is hellinger or triangular: no refinement) the table IV
    can increase by merging, because pure rows are left out of the sum. *)
Theorem C20_pure_rows_refuted : exists groups,
  let fine := concat groups in let coarse := merge_rows groups in
  0 < t_nev (nevs fine) /\ 0 < t_ev (evs fine) /\
  table_iv (nevs fine) (evs fine) = 0 /\ 0 < table_iv (nevs coarse) (evs coarse).
Proof.
  exists [[(2, 0); (1, 1)]; [(0, 2)]]%Z. cbv zeta. unfold table_iv, t_nev, t_ev. cbn. unfold t_nev, t_ev. cbn.
  split; [lra|]. split; [lra|]. rewrite !jeffrey1_eq. split.
  - replace (1 / 3 - 1 / 3) with 0 by ring. ring.
  - replace (3 / 3 / (1 / 3)) with 3 by field. assert (0 < ln 3) by (rewrite <- ln_1; apply ln_increasing; lra). lra.
Qed.
Print Assumptions C20_pure_rows_refuted.

(** C21 *)
Theorem C21_woe_event_rate_inverse : forall n_nonevent n_event, 0 < n_nonevent -> 0 < n_event ->
  (forall er, 0 < er < 1 -> woe_to_er (er_to_woe er n_nonevent n_event) n_nonevent n_event = er) /\
  (forall w, 0 < woe_to_er w n_nonevent n_event < 1 /\
             er_to_woe (woe_to_er w n_nonevent n_event) n_nonevent n_event = w) /\
  (forall a b, 0 < a -> a < b -> b < 1 -> er_to_woe b n_nonevent n_event < er_to_woe a n_nonevent n_event).
Proof.
  intros n e Hn He. split; [intros; now apply er_woe_inverse|]. split.
  - intros w. destruct (woe_er_inverse w n e Hn He). auto.
  - intros. now apply woe_decreasing.
Qed.
Print Assumptions C21_woe_event_rate_inverse.

(** transform returns the displayed value of the row of x (unless cat_unknown is an int, see below) *)
Theorem C21_transform_matches_table : forall splits sp m ms mm unknown nev ev x k,
  nondecreasing splits -> sp_disjoint sp -> length nev = length ev ->
  length ev = (S (length splits) + n_special sp + 1)%nat ->
  0 < t_nev nev -> 0 < t_ev ev -> (forall z, unknown <> UInt z) ->
  row_of splits sp x k ->
  ((k < S (length splits))%nat \/ (ms = Empirical /\ mm = Empirical)) ->
  exists v, nth_error (match m with BWoe => woe nev ev | BEventRate => event_rate nev ev end) k = Some v /\
            transform_binary_num splits sp m ms mm unknown nev ev x = Ok v.
Proof. exact transform_displayed. Qed.
Print Assumptions C21_transform_matches_table.

Theorem C21_transform_matches_table_categorical : forall bins sp m ms mm unknown nev ev c i,
  length nev = length ev -> (length bins <= length ev)%nat ->
  0 < t_nev nev -> 0 < t_ev ev -> (forall z, unknown <> UInt z) ->
  ~ In (XNum c) (flat_codes sp) -> listed bins i c -> (forall j, listed bins j c -> j = i) ->
  exists v, nth_error (match m with BWoe => woe nev ev | BEventRate => event_rate nev ev end) i = Some v /\
            transform_binary_cat bins sp m ms mm unknown nev ev (XNum c) = Ok v.
Proof. exact transform_displayed_cat. Qed.
Print Assumptions C21_transform_matches_table_categorical.

Example C21_hyps_met : row_of [4]%Z SpNone (XNum 7) 1 /\ row_of [4]%Z SpNone XNaN 3 /\
  nondecreasing [4]%Z /\ listed [[1; 2]; [3]]%Z 1 3.
Proof.
  split; [right; split; [cbn; tauto|split; cbn; [lia|exact I]]|]. split; [reflexivity|].
  split; [repeat constructor|]. eexists. split; [reflexivity|]. now left.
Qed.

(** An int cat_unknown (for instance cat_unknown=0) makes the output array an integer array: every
    event rate strictly between 0 and 1 comes out as 0. *)
Theorem C21_int_unknown_truncates_refuted : exists splits sp nev ev x k v,
  row_of splits sp x k /\ 0 < t_nev nev /\ 0 < t_ev ev /\
  nth_error (event_rate nev ev) k = Some v /\ 0 < v /\
  transform_binary_num splits sp BEventRate Empirical Empirical (UInt 0) nev ev x = Ok 0.
Proof.
  exists [], SpNone, [1; 0; 0]%Z, [1; 0; 0]%Z, (XNum 5), 0%nat, (1 / 2).
  split; [right; split; [cbn; tauto|split; cbn; exact I]|]. unfold t_nev, t_ev. cbn. split; [lra|]. split; [lra|].
  split; [reflexivity|]. split; [lra|]. unfold transform_binary_num. cbn. do 2 f_equal. unfold rtrunc.
  destruct (Rle_dec 0 (1 / 2)); [|lra]. unfold Int_part. rewrite <- (tech_up (1/2) 1); [reflexivity| |]; cbn; lra.
Qed.
Print Assumptions C21_int_unknown_truncates_refuted.

(** C22 *)
Theorem C22_ks_hhi_range : forall nev ev,
  length nev = length ev -> counts_ok nev -> counts_ok ev -> 0 < t_nev nev -> 0 < t_ev ev ->
  0 <= ks nev ev <= 1 /\
  1 / INR (length ev) <= table_hhi nev ev <= 1 /\ 0 <= table_hhi_norm nev ev <= 1.
Proof.
  intros nev ev Hl Hn He H1 H2. split; [now apply ks_bounds|].
  destruct (table_shares nev ev Hl Hn He H1 H2) as [A B].
  destruct (hhi_bounds (p_records nev ev) B A) as [C D].
  assert (El : length (p_records nev ev) = length ev).
  { unfold p_records, n_records. rewrite map_length. rewrite map2_len; auto. }
  rewrite El in C. auto.
Qed.
Print Assumptions C22_ks_hhi_range.
(** KS is the largest gap between the cumulative event and non-event distributions *)
Theorem C22_ks_is_max_gap : forall nev ev, length nev = length ev -> ev <> [] ->
  let gap k := Rabs (rsum (firstn (S k) (p_event ev)) - rsum (firstn (S k) (p_nonevent nev))) in
  (forall k, (k < length ev)%nat -> gap k <= ks nev ev) /\ exists k, (k < length ev)%nat /\ ks nev ev = gap k.
Proof. exact ks_is_max. Qed.
Print Assumptions C22_ks_is_max_gap.
(** Gini is the standard symmetric expression: independent of the row order and of the ties of the
    internal sort, and in [0, 1]. *)
Theorem C22_gini : forall argsort rows, argsort_ok argsort ->
  (forall r, In r rows -> (0 <= fst r)%Z /\ (0 <= snd r)%Z) ->
  0 < IZR (zsum (evs rows)) -> 0 < IZR (zsum (nevs rows)) ->
  gini argsort rows =
    pair_sum (fun a b => Rabs (IZR (fst a) * IZR (snd b) - IZR (fst b) * IZR (snd a))) rows
    / (2 * (IZR (zsum (evs rows)) * IZR (zsum (nevs rows)))) /\
  0 <= gini argsort rows <= 1 /\
  forall argsort' rows', argsort_ok argsort' -> Permutation rows rows' -> gini argsort' rows' = gini argsort rows.
Proof.
  intros a rows Ha Hp H1 H2. split; [now apply gini_exact|]. split; [now apply gini_range|].
  intros a' rows' Ha' Hperm.
  assert (E1 : IZR (zsum (evs rows')) = IZR (zsum (evs rows))).
  { rewrite !IZR_zsum. unfold evs. rewrite !map_map. apply rsum_map_perm. now apply Permutation_sym. }
  assert (E2 : IZR (zsum (nevs rows')) = IZR (zsum (nevs rows))).
  { rewrite !IZR_zsum. unfold nevs. rewrite !map_map. apply rsum_map_perm. now apply Permutation_sym. }
  rewrite (gini_exact a' rows'), (gini_exact a rows); auto; try (rewrite ?E1, ?E2; assumption).
  - rewrite E1, E2. f_equal. apply pair_sum_perm. now apply Permutation_sym.
  - intros r Hr. apply Hp. eapply Permutation_in; [apply Permutation_sym; exact Hperm|exact Hr].
Qed.
Print Assumptions C22_gini.
Theorem C22_quality_score_range : forall iv pv hn,
  0 <= iv -> (forall p, In p pv -> 0 <= p <= 1) -> 0 <= hn <= 1 ->
  0 <= binning_quality_score iv pv hn <= 1 /\ 0 <= continuous_quality_score iv pv hn <= 1.
Proof. intros. split; [now apply quality_bounds|now apply cont_quality_bounds]. Qed.
Print Assumptions C22_quality_score_range.

Fixpoint ins_ner (a : grow) (l : list grow) : list grow :=
  match l with [] => [a] | b :: r => if Rle_dec (ner a) (ner b) then a :: b :: r else b :: ins_ner a r end.
Definition sort_ner (l : list grow) : list grow := fold_right ins_ner [] l.
Lemma ins_ner_perm a l : Permutation (ins_ner a l) (a :: l).
Proof.
  induction l as [|b l IH]; cbn; [reflexivity|]. destruct (Rle_dec _ _); [reflexivity|].
  rewrite IH. apply perm_swap.
Qed.
Lemma ins_ner_sorted a l : StronglySorted (fun a b => ner a <= ner b) l -> StronglySorted (fun a b => ner a <= ner b) (ins_ner a l).
Proof.
  induction 1 as [|b l Hl IH Hb]; cbn; [repeat constructor|]. destruct (Rle_dec (ner a) (ner b)) as [H|H].
  - constructor; [now constructor|]. constructor; [exact H|]. eapply Forall_impl; [|exact Hb]. cbn. intros. lra.
  - constructor; [exact IH|]. apply Forall_forall. intros c Hc. apply (Permutation_in _ (ins_ner_perm a l)) in Hc as [<-|Hc]; [lra|].
    rewrite Forall_forall in Hb. now apply Hb.
Qed.
Example C22_hyps_met : argsort_ok sort_ner /\ 0 < IZR (zsum (evs [(1, 3); (2, 2)]%Z)) /\ 0 < IZR (zsum (nevs [(1, 3); (2, 2)]%Z)).
Proof.
  split; [|cbn; lra]. intros l. induction l as [|a l [P S]]; [split; constructor|]. split; cbn.
  - etransitivity; [apply ins_ner_perm|]. now constructor.
  - now apply ins_ner_sorted.
Qed.

(** C23: unknown categories (cat_unknown=None). Holds when one of metric_special / metric_missing is
    "empirical", or when no training record is special or missing ... *)
Theorem C23_unknown_category_partial : forall bins sp m ms mm nev ev c,
  length nev = length ev -> 0 < t_nev nev -> 0 < t_ev ev ->
  (forall i, ~ listed bins i c) -> ~ In (XNum c) (flat_codes sp) ->
  (ms = Empirical \/ mm = Empirical \/ zsum (skipn (length bins) (n_records nev ev)) = 0%Z) ->
  transform_binary_cat bins sp m ms mm UNone nev ev (XNum c) =
  Ok (match m with BEventRate => IZR (zsum ev) / (IZR (zsum nev) + IZR (zsum ev)) | BWoe => 0 end).
Proof.
  intros bins sp m ms mm nev ev c Hl Hn He Hli Hc Hk. unfold transform_binary_cat.
  rewrite CatP.cat_transform_unknown by assumption. cbn [store_res store]. f_equal.
  set (emp := is_empirical ms || is_empirical mm).
  assert (Hemp : emp = true \/ zsum (skipn (length bins) (n_records nev ev)) = 0%Z).
  { destruct Hk as [ -> |[ -> |H]]; [left; reflexivity|left; unfold emp; apply orb_true_r|now right]. }
  destruct (unknown_mean emp (length bins) nev ev Hl Hn He Hemp) as [A B]. destruct m; [exact B|exact A].
Qed.
Print Assumptions C23_unknown_category_partial.
(** ... and is false with the default arguments otherwise: the denominator leaves out the special and
    missing rows while the numerator keeps them; the "mean event rate" can exceed 1. *)
Theorem C23_default_unknown_refuted : exists bins nev ev c r,
  length nev = length ev /\ 0 < t_nev nev /\ 0 < t_ev ev /\ (forall i, ~ listed bins i c) /\
  transform_binary_cat bins SpNone BEventRate (Const true 0) (Const true 0) UNone nev ev (XNum c) = Ok r /\ 1 < r.
Proof.
  exists [[1%Z]], [1; 0; 1]%Z, [1; 0; 2]%Z, 9%Z, (3 / 2). unfold t_nev, t_ev. cbn. split; [reflexivity|]. split; [lra|]. split; [lra|].
  split; [intros i (b & Hb & Hin); destruct i as [|[|i]]; cbn in Hb; try discriminate; injection Hb as <-; cbn in Hin; intuition discriminate|].
  split; [|lra]. unfold transform_binary_cat. cbn. unfold mean_event_rate, t_ev. cbn. reflexivity.
Qed.
Print Assumptions C23_default_unknown_refuted.
Example C23_hyps_met : (forall i, ~ listed [[1%Z]; [2%Z]] i 9%Z) /\ zsum (skipn 2 (n_records [1; 2; 0; 0] [1; 1; 0; 0])%Z) = 0%Z.
Proof.
  split; [|reflexivity]. intros i (b & Hb & Hin). destruct i as [|[|[|i]]]; cbn in Hb; try discriminate; injection Hb as <-; cbn in Hin; intuition discriminate.
Qed.
