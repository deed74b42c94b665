(** C87: the tables of the 2D binnings: columns, statistics, value matrices, figures, WoE transform, analysis, histories. *)
From Coq Require Import List ZArith QArith Bool Arith Lia String Reals Qreals Sorting Lra.
From Verif Require Import Model.Arr Model.Core Model.Metrics Model.MultiTable Model.TwoD Model.TwoDCont Model.TwoDCart Model.TwoDPairs Model.TwoDTable
  Spec.CoreSpec Spec.MetricsSpec Spec.TwoDSpec Spec.TwoDContSpec Spec.TwoDCartSpec Spec.TwoDPairsSpec Spec.TwoDTableSpec
  Proofs.ArrP Proofs.CoreP Proofs.MetricsP Proofs.MetricsQ Proofs.MetricsFinal Proofs.TwoDP Proofs.TwoDQ Proofs.TwoDR Proofs.TwoDS Proofs.TwoDV Proofs.TwoDC Proofs.TwoDCR
  Proofs.TwoDPairsP Proofs.TwoDPairsQ Proofs.TwoDTableP Proofs.TwoDTableQ Proofs.TwoDTableR Proofs.TwoDTableS Proofs.TwoDTableT
  Props.MetricsProps Props.TwoDProps Props.TwoDContProps Props.TwoDPairsProps.
Import ListNotations.
Open Scope nat_scope.

(** The columns of a fitted binary table. E and N: events and non-events of the table. *)
Theorem C87_binary_columns : forall ax ay cx cy sx sy c data f totals, binary_fit ax ay cx cy sx sy c data f ->
  let fr := build_2d f totals in let nb := List.length (t_bx f) in
  let E := IZR (zsum (fr_event fr)) in let N := IZR (zsum (fr_nonevent fr)) in
  0 < nb /\ (0 < E)%R /\ (0 < N)%R /\
  List.length (fr_event fr) = nb + 2 /\ List.length (fr_nonevent fr) = nb + 2 /\ List.length (fr_count fr) = nb + 2 /\ List.length (fr_share fr) = nb + 2 /\
  List.length (fr_rate fr) = nb + 2 /\ List.length (fr_woe fr) = nb + 2 /\ List.length (fr_iv fr) = nb + 2 /\ List.length (fr_js fr) = nb + 2 /\
  rsum (fr_share fr) = 1%R /\
  (forall k, k < nb -> (0 < nth k (fr_event fr) 0 /\ 0 < nth k (fr_nonevent fr) 0)%Z) /\
  (forall k, k < nb + 2 -> let e := nth k (fr_event fr) 0%Z in let n := nth k (fr_nonevent fr) 0%Z in
     let x := (IZR e / E)%R in let y := (IZR n / N)%R in
     (0 <= e)%Z /\ (0 <= n)%Z /\ nth k (fr_count fr) 0%Z = (e + n)%Z /\ (nth k (fr_share fr) 0 = IZR (e + n) / (E + N))%R /\
     ((0 < e)%Z -> (0 < n)%Z ->
        (nth k (fr_rate fr) 0 = IZR e / IZR (e + n) /\ 0 < nth k (fr_rate fr) 0 < 1 /\
         nth k (fr_woe fr) 0 = ln (y / x) /\
         nth k (fr_iv fr) 0 = (x - y) * ln (x / y) /\
         nth k (fr_js fr) 0 = 1 / 2 * (x * ln (x / (1 / 2 * (x + y))) + y * ln (y / (1 / 2 * (x + y)))))%R) /\
     (~ ((0 < e)%Z /\ (0 < n)%Z) -> (nth k (fr_rate fr) 0 = 0 /\ nth k (fr_woe fr) 0 = 0 /\ nth k (fr_iv fr) 0 = 0 /\ nth k (fr_js fr) 0 = 0)%R)) /\
  fr_totals fr = (if totals then Some (mkTot2 (zsum (fr_event fr) + zsum (fr_nonevent fr))%Z (zsum (fr_nonevent fr)) (zsum (fr_event fr)) (E / (E + N))%R (rsum (fr_iv fr)) (rsum (fr_js fr))) else None).
Proof.
  intros ax ay cx cy sx sy c data f totals HB fr nb E N. destruct (bin_counts ax ay cx cy sx sy c data f HB) as (Le & Ln & Hnb & Ce & Cn & Pe & Pn & Hpos). fold nb in Le, Ln, Hnb, Hpos.
  unfold E, N, fr. cbn [build_2d fr_event fr_nonevent fr_count fr_share fr_rate fr_woe fr_iv fr_js fr_totals].
  assert (PE : (0 < IZR (zsum (t_ev f)))%R) by now apply (IZR_lt 0). assert (PN : (0 < IZR (zsum (t_nev f)))%R) by now apply (IZR_lt 0).
  destruct (cols_lengths (t_nev f) (t_ev f) (nb + 2) Ln Le) as (A1 & A2 & A3 & A4 & A5).
  do 11 (split; [solve [auto]|]). split; [now apply table_shares; [lia| | |unfold Metrics.t_nev|unfold Metrics.t_ev]|]. split; [exact Hpos|].
  split; [|destruct totals; [|reflexivity]; do 2 f_equal; unfold t_event_rate, Metrics.t_ev, Metrics.t_nev; [lia|f_equal; lra]].
  intros k Hk. set (e := nth k (t_ev f) 0%Z). set (n := nth k (t_nev f) 0%Z). set (x := (IZR e / IZR (zsum (t_ev f)))%R). set (y := (IZR n / IZR (zsum (t_nev f)))%R).
  destruct (cols_row (t_nev f) (t_ev f) (nb + 2) Ln Le Cn Ce Pn Pe k Hk) as (R1 & R2 & R3 & R4 & R5 & R6). fold e n in R1, R2, R3, R4, R5, R6.
  split; [exact R1|]. split; [exact R2|]. split; [exact R3|]. split; [rewrite R4, !plus_IZR; reflexivity|]. split.
  - intros He Hn. destruct (R5 He Hn) as (S1 & S2 & S3 & S4). rewrite S1. split; [reflexivity|]. split; [exact S2|]. split; [exact S3|]. rewrite !S4. fold x y.
    assert (X : (0 < x)%R) by (apply div_pos; [now apply (IZR_lt 0)|exact PE]). assert (Y : (0 < y)%R) by (apply div_pos; [now apply (IZR_lt 0)|exact PN]).
    split; [apply jeffrey1_eq|]. unfold js1. rewrite !kl1_eq by assumption. reflexivity.
  - intros H. destruct (R6 H) as (S1 & S2 & S3). rewrite S1, S2, !S3. auto.
Qed.
Print Assumptions C87_binary_columns.

(** The statistics of the table: Gini, IV, Jensen-Shannon, Hellinger, triangular, KS. *)
Theorem C87_binary_statistics : forall ax ay cx cy sx sy c data f argsort, binary_fit ax ay cx cy sx sy c data f -> argsort_ok argsort ->
  let E := IZR (zsum (t_ev f)) in let N := IZR (zsum (t_nev f)) in let rows := combine (t_ev f) (t_nev f) in
  let same := forall r, In r rows -> (0 < fst r)%Z -> (0 < snd r)%Z -> (IZR (fst r) / E = IZR (snd r) / N)%R in
  let gap k := Rabs (rsum (map (fun z => IZR z / E) (firstn (S k) (t_ev f))) - rsum (map (fun z => IZR z / N) (firstn (S k) (t_nev f))))%R in
  exists gi iv js he tr k, stats_2d argsort f = [gi; iv; js; he; tr; k] /\
    (gi = pair_sum (fun a b => Rabs (IZR (fst a) * IZR (snd b) - IZR (fst b) * IZR (snd a))) rows / (2 * (E * N)))%R /\
    (0 <= gi <= 1)%R /\ (0 <= iv)%R /\ (0 <= js <= ln 2)%R /\ (0 <= he <= 1)%R /\ (0 <= tr <= 2)%R /\ (0 <= k <= 1)%R /\
    iv = rsum (fr_iv (build_2d f true)) /\ js = rsum (fr_js (build_2d f true)) /\
    (iv = 0%R <-> same) /\ (js = 0%R <-> same) /\ (he = 0%R <-> same) /\ (tr = 0%R <-> same) /\
    (forall j, j < List.length (t_ev f) -> (gap j <= k)%R) /\ exists j, j < List.length (t_ev f) /\ k = gap j.
Proof.
  intros ax ay cx cy sx sy c data f argsort HB Ha E N rows same gap. destruct (bin_counts ax ay cx cy sx sy c data f HB) as (Le & Ln & Hnb & Ce & Cn & Pe & Pn & Hpos).
  set (nb := List.length (t_bx f)) in *.
  assert (PE : (0 < E)%R) by now apply (IZR_lt 0). assert (PN : (0 < N)%R) by now apply (IZR_lt 0).
  assert (Ev : evs rows = t_ev f). { unfold evs, rows. clear -Le Ln. revert Le Ln. generalize (nb + 2). generalize (t_nev f). induction (t_ev f) as [|e l IH]; intros [|x r] [|n] A B; try discriminate; [reflexivity|]. cbn. f_equal. injection A as A. injection B as B. eapply IH; eauto. }
  assert (Nv : nevs rows = t_nev f). { unfold nevs, rows. clear -Le Ln. revert Le Ln. generalize (nb + 2). generalize (t_nev f). induction (t_ev f) as [|e l IH]; intros [|x r] [|n] A B; try discriminate; [reflexivity|]. cbn. f_equal. injection A as A. injection B as B. eapply IH; eauto. }
  destruct (C19_divergences rows) as ((D1 & D2) & (D3 & D4) & (D5 & D6) & (D7 & D8)); try (rewrite ?Ev, ?Nv; unfold Metrics.t_ev, Metrics.t_nev; assumption).
  rewrite Ev, Nv in D1, D2, D3, D4, D5, D6, D7, D8.
  assert (SS : (forall r, In r rows -> both_classes r -> (IZR (fst r) / E = IZR (snd r) / N)%R) <-> same) by (unfold same, both_classes; split; intros H r Hr; [intros A B; apply H; auto|intros [A B]; apply H; auto]).
  destruct (C22_gini argsort rows Ha) as (G1 & G2 & _).
  { intros r Hr. unfold rows in Hr. destruct r as [e n]. pose proof (in_combine_l _ _ _ _ Hr). pose proof (in_combine_r _ _ _ _ Hr). cbn [fst snd]. split; [now apply Ce|now apply Cn]. }
  { now rewrite Ev. } { now rewrite Nv. }
  rewrite Ev, Nv in G1. fold E N in G1.
  destruct (C22_ks_hhi_range (t_nev f) (t_ev f) ltac:(lia) Cn Ce PN PE) as (K1 & _).
  assert (Hne : t_ev f <> []) by (intros X; rewrite X in Le; cbn in Le; lia).
  destruct (C22_ks_is_max_gap (t_nev f) (t_ev f) ltac:(lia) Hne) as (K2 & j & Hj & K3).
  assert (GP : forall j, Rabs (rsum (firstn (S j) (p_event (t_ev f))) - rsum (firstn (S j) (p_nonevent (t_nev f)))) = gap j).
  { intros i. unfold p_event, p_nonevent. rewrite !firstn_map. reflexivity. }
  do 6 eexists. split; [unfold stats_2d; fold rows; reflexivity|].
  split; [exact G1|]. split; [exact G2|]. split; [exact D1|]. split; [exact D3|]. split; [exact D5|]. split; [exact D7|]. split; [exact K1|].
  split; [reflexivity|]. split; [reflexivity|]. split; [rewrite D2; exact SS|]. split; [rewrite D4; exact SS|]. split; [rewrite D6; exact SS|]. split; [rewrite D8; exact SS|].
  split; [intros i Hi; rewrite <- GP; now apply K2|exists j; split; [exact Hj|rewrite <- GP; exact K3]].
Qed.
Print Assumptions C87_binary_statistics.

(** The matrices D and W hold, in every grid cell, the event rate and the WoE of the bin of the cell, whatever np.empty held. *)
Theorem C87_cells : forall ax ay cx cy sx sy c data f D0 y x, binary_fit ax ay cx cy sx sy c data f -> increasing sx -> increasing sy ->
  List.length D0 = S (List.length sy) * S (List.length sx) -> y < S (List.length sy) -> x < S (List.length sx) ->
  let cell := y * S (List.length sx) + x in
  exists b, nth_error (t_P f) cell = Some b /\ cell_bin sx sy f y x b /\
    nth cell (rate_matrix f D0) 0%R = nth b (fr_rate (build_2d f true)) 0%R /\ nth cell (woe_matrix f D0) 0%R = nth b (fr_woe (build_2d f true)) 0%R.
Proof.
  intros ax ay cx cy sx sy c data f D0 y x HB Hsx Hsy HD Hy Hx cell.
  destruct (binary_unpack _ _ _ _ _ _ _ _ _ HB) as (srs & fe & fne & P0 & HF & HT & HP0 & HP & Hpos).
  destruct (bin_counts ax ay cx cy sx sy c data f HB) as (Le & Ln & Hnb & Ce & Cn & Pe & Pn & _). set (nb := List.length (t_bx f)) in *.
  assert (Hc : cell < S (List.length sy) * S (List.length sx)) by (unfold cell; nia).
  assert (LP : List.length (t_P f) = S (List.length sy) * S (List.length sx)) by (rewrite HP, assign_length; exact HP0).
  pose proof (the_cell_bin sx sy fe fne srs _ _ f P0 HF HT HP0 HP Hsx Hsy y x Hy Hx) as CB. cbv beta in CB. fold cell in CB. set (b := nth cell (t_P f) 0) in *.
  exists b. split; [apply nth_error_nth'; lia|]. split; [exact CB|]. pose proof (proj1 CB) as Hb. fold nb in Hb. destruct (Hpos b Hb) as (He & Hn).
  destruct (cols_row (t_nev f) (t_ev f) (nb + 2) Ln Le Cn Ce Pn Pe b ltac:(lia)) as (_ & _ & _ & _ & R5 & _). destruct (R5 He Hn) as (S1 & S2 & S3 & _).
  assert (M : nth cell (rate_matrix f D0) 0%R = bin_rate f b) by exact (matrix_value sx sy fe fne srs _ _ f P0 HF HT HP0 HP (bin_rate f) D0 y x HD Hy Hx).
  assert (Br : bin_rate f b = (IZR (nth b (t_ev f) 0%Z) / IZR (nth b (t_ev f) 0%Z + nth b (t_nev f) 0%Z))%R) by (unfold bin_rate; now rewrite plus_IZR).
  cbn [build_2d fr_rate fr_woe]. split; [rewrite M, S1; exact Br|].
  unfold woe_matrix. set (F := fun d => (ln (1 / d - 1) + ln (Metrics.t_ev (t_ev f) / Metrics.t_nev (t_nev f)))%R).
  assert (LR : List.length (rate_matrix f D0) = S (List.length sy) * S (List.length sx)) by (unfold rate_matrix; now rewrite assign_R_len).
  rewrite (nth_indep _ 0%R (F 0%R)) by (rewrite map_length; lia). rewrite map_nth, M. symmetry. apply nth_of. unfold woe, mask, F.
  assert (N1 : nth_error (t_nev f) b = Some (nth b (t_nev f) 0%Z)) by (apply nth_error_nth'; lia). assert (E1 : nth_error (t_ev f) b = Some (nth b (t_ev f) 0%Z)) by (apply nth_error_nth'; lia).
  erewrite (column_nth (fun (m : bool) r => if m then _ else _)); [|apply (column_nth (fun e n => Z.ltb 0 e && Z.ltb 0 n)%bool); eassumption|apply event_rate_nth'; eassumption].
  apply Z.ltb_lt in He, Hn. rewrite He, Hn. cbn [andb]. now rewrite Br.
Qed.
Print Assumptions C87_cells.

(** plot() always succeeds, for both metrics, and shows every cell with the number and the value of its bin; the lines of the side
    panels follow the cells of the grid rows and columns. *)
Theorem C87_binary_figure : forall ax ay cx cy sx sy c data f argsort ts D0 w, binary_fit ax ay cx cy sx sy c data f -> increasing sx -> increasing sy ->
  let m := S (List.length sy) in let n := S (List.length sx) in List.length D0 = m * n ->
  exists g, k_plot (binary_kit argsort ts m n f D0) w = Ok g /\
    figure_of sx sy f (let fr := build_2d f true in if w then fr_woe fr else fr_rate fr) g.
Proof.
  intros ax ay cx cy sx sy c data f argsort ts D0 w HB Hsx Hsy m n HD.
  destruct (binary_unpack _ _ _ _ _ _ _ _ _ HB) as (srs & fe & fne & P0 & HF & HT & HP0 & HP & Hpos).
  destruct (bin_counts ax ay cx cy sx sy c data f HB) as (Le & Ln & _). destruct (cols_lengths (t_nev f) (t_ev f) _ Ln Le) as (_ & _ & A3 & A4 & _).
  cbn [k_plot binary_kit build_2d fr_rate fr_woe].
  assert (C : forall y x, y < m -> x < n -> nth (y * n + x) (rate_matrix f D0) 0%R = nth (nth (y * n + x) (t_P f) 0) (event_rate (t_nev f) (t_ev f)) 0%R /\
      nth (y * n + x) (woe_matrix f D0) 0%R = nth (nth (y * n + x) (t_P f) 0) (woe (t_nev f) (t_ev f)) 0%R).
  { intros y x Hy Hx. destruct (C87_cells ax ay cx cy sx sy c data f D0 y x HB Hsx Hsy HD Hy Hx) as (b & Hb & _ & H1 & H2). fold n in Hb, H1, H2.
    rewrite (nth_of _ _ 0 _ Hb). split; assumption. }
  destruct w; apply (plot_figure sx sy fe fne srs _ _ f P0 HF HT HP0 HP Hsx Hsy); try lia; intros y x Hy Hx; apply (C y x Hy Hx).
Qed.
Print Assumptions C87_binary_figure.
Theorem C87_continuous_figure : forall ax ay cx cy sx sy c data f welch D0 w, continuous_fit ax ay cx cy sx sy c data f -> increasing sx -> increasing sy ->
  let m := S (List.length sy) in let n := S (List.length sx) in List.length D0 = m * n ->
  exists g, k_plot (cont_kit welch m n f D0) w = Ok g /\ figure_of sx sy (k_fit f) (map Q2R (table_means f)) g.
Proof.
  intros ax ay cx cy sx sy c data f welch D0 w HB Hsx Hsy m n HD.
  destruct (continuous_unpack _ _ _ _ _ _ _ _ _ HB) as (srs & fe & fne & P0 & HF & HT & HP0 & HP & Hpos).
  destruct (bins_length _ _ _ _ _ _ _ _ HF) as [L1 L2].
  assert (LN : List.length (k_records f) = List.length srs + 2) by (unfold k_records; rewrite (fo_ne _ _ _ _ _ _ _ _ HF), app_length, map_length; reflexivity).
  assert (LE : List.length (k_sums f) = List.length srs + 2) by (unfold k_sums; rewrite (fo_e _ _ _ _ _ _ _ _ HF), app_length, map_length; reflexivity).
  assert (LM : List.length (map Q2R (table_means f)) = List.length srs + 2) by (rewrite map_length; unfold table_means, mean_column; rewrite len_map2; lia).
  cbn [k_plot cont_kit]. apply (plot_figure sx sy fe fne srs _ _ (k_fit f) P0 HF HT HP0 HP Hsx Hsy); [lia|]. intros y x Hy Hx. unfold mean_matrix.
  rewrite (matrix_value sx sy fe fne srs _ _ (k_fit f) P0 HF HT HP0 HP (bin_mean f) D0 y x HD Hy Hx).
  pose proof (proj1 (the_cell_bin sx sy fe fne srs _ _ (k_fit f) P0 HF HT HP0 HP Hsx Hsy y x Hy Hx)) as Hb. cbv beta in Hb. set (b := nth (y * S (List.length sx) + x) (t_P (k_fit f)) 0) in *.
  specialize (Hpos b Hb). symmetry. apply nth_of. rewrite nth_error_map. unfold table_means, mean_column.
  erewrite (column_nth (fun n s => if (0 <? n)%Z then qmean s n else 0%Q)); [|apply nth_error_nth' with (d := 0%Z); lia|apply nth_error_nth' with (d := 0%Z); lia].
  cbn [option_map]. pose proof Hpos as Hp. apply Z.ltb_lt in Hp. rewrite Hp. f_equal. unfold bin_mean, qmean. rewrite Q2R_div.
  - unfold Q2R, inject_Z. cbn [Qnum Qden]. rewrite RMicromega.Rinv_1. reflexivity || (unfold Rdiv; rewrite ?Rinv_1, ?Rmult_1_r; reflexivity).
  - unfold Qeq, inject_Z. cbn. lia.
Qed.
Print Assumptions C87_continuous_figure.

(** transform with metric "woe": the WoE displayed for the bin of the pair; special and missing pairs: that of their row, or the
    number given. *)
Theorem C87_transform_woe : forall ax ay cx cy sx sy c data f ms mm x y, binary_fit ax ay cx cy sx sy c data f -> nondecreasing sx -> nondecreasing sy ->
  let shown b := nth b (fr_woe (build_2d f true)) 0%R in let nb := List.length (t_bx f) in
  (known ax x -> known ay y -> no_code cx x -> no_code cy y ->
     exists b, b < nb /\ transform2_indices ax ay cx cy f Empirical Empirical x y = Ok (Z.of_nat b) /\ transform2_woe ax ay cx cy f ms mm x y = Ok (shown b)) /\
  (x = XNaN \/ y = XNaN -> transform2_woe ax ay cx cy f ms mm x y = Ok (match mm with Empirical => shown (S nb) | Const _ v => v end)) /\
  (x <> XNaN -> y <> XNaN -> ~ (no_code cx x /\ no_code cy y) ->
     transform2_woe ax ay cx cy f ms mm x y = Ok (match ms with Empirical => shown nb | Const _ v => v end)).
Proof.
  intros ax ay cx cy sx sy c data f ms mm x y HB Hsx Hsy shown nb.
  destruct (binary_unpack _ _ _ _ _ _ _ _ _ HB) as (srs & fe & fne & P0 & HF & HT & HP0 & HP & Hpos).
  destruct (bin_counts ax ay cx cy sx sy c data f HB) as (Le & Ln & Hnb & _). fold nb in Le, Ln, Hnb, Hpos.
  destruct (bins_length _ _ _ _ _ _ _ _ HF) as [L1 L2].
  assert (N1 : forall l b, b < List.length l -> nth_error l b = Some (nth b l 0%Z)) by (intros l b H; now apply nth_error_nth').
  assert (W : forall b l1 l2, b < nb + 2 -> nth_error l1 b = nth_error (t_nev f) b -> nth_error l2 b = nth_error (t_ev f) b ->
     nth_error (woe_column l1 l2 (Metrics.t_nev (t_nev f)) (Metrics.t_ev (t_ev f))) b = Some (shown b)).
  { intros b l1 l2 Hb E1 E2. unfold woe_column. erewrite column_nth; [|rewrite E1; apply N1; lia|rewrite E2; apply N1; lia]. cbv beta. f_equal. symmetry. unfold shown. cbn [build_2d fr_woe].
    apply nth_of. unfold woe, mask. erewrite (column_nth (fun (m : bool) r => if m then _ else _)); [|apply (column_nth (fun e n => Z.ltb 0 e && Z.ltb 0 n)%bool); apply N1; lia|apply event_rate_nth'; apply N1; lia].
    destruct (Z.ltb 0 (nth b (t_ev f) 0%Z) && Z.ltb 0 (nth b (t_nev f) 0%Z))%bool; reflexivity. }
  split; [|split].
  - intros Kx Ky Cx Cy. destruct (the_bin _ _ _ _ _ _ _ f ax ay HF HT Hsx Hsy x y Kx Ky) as (b & Hb & Hin & Hu & _).
    rewrite <- L1 in Hb. fold nb in Hb. exists b. split; [exact Hb|]. split; [apply transform2_clean; try assumption; eapply known_num; eauto|].
    unfold transform2_woe. fold nb. apply (transform2_value ax ay cx cy f ms mm _ 0%R x y b); try assumption; try (eapply known_num; eauto).
    apply W; [lia|now apply cut_nth|now apply cut_nth].
  - intros H. unfold transform2_woe. fold nb. rewrite transform2_value_missing by exact H. destruct mm; [|reflexivity]. unfold idx. fold nb.
    rewrite (W (S nb)); [reflexivity|lia|now rewrite cut_empirical by auto|now rewrite cut_empirical by auto].
  - intros Hx Hy H. unfold transform2_woe. fold nb. rewrite transform2_value_special; try assumption.
    + destruct ms; [|reflexivity]. unfold idx. fold nb. rewrite (W nb); [reflexivity|lia|now rewrite cut_empirical by auto|now rewrite cut_empirical by auto].
    + destruct (special2 cx cy (x, y, Y0)) eqn:E; [reflexivity|]. exfalso. apply H. exact (special2_false _ _ _ _ _ E).
Qed.
Print Assumptions C87_transform_woe.

(** analysis() of a fitted binary table never fails: it tests exactly the pairs of neighbouring bins, each on the table of their
    non-events and events, and its quality score, between 0 and 1, is that of the IV, these p-values and the normalised HHI. *)
Theorem C87_binary_analysis : forall ax ay cx cy sx sy c data f argsort ts D0 name, binary_fit ax ay cx cy sx sy c data f -> increasing sx -> increasing sy ->
  (forall obs, (0 <= ts_chi2 ts obs <= 1)%R) -> (forall obs, (0 <= ts_fisher ts obs <= 1)%R) ->
  let m := S (List.length sy) in let n := S (List.length sx) in
  exists pairs q, tests_neighbours f pairs /\ k_analysis (binary_kit argsort ts m n f D0) name = Ok (Some q) /\ (0 <= q <= 1)%R /\
    q = binning_quality_score (rsum (fr_iv (build_2d f true)))
          (map (fun p => (if String.eqb name "chi2" then ts_chi2 ts else ts_fisher ts)
             [[nth (fst p) (t_nev f) 0; nth (snd p) (t_nev f) 0]; [nth (fst p) (t_ev f) 0; nth (snd p) (t_ev f) 0]]%Z) pairs)
          (hhi_norm (fr_share (build_2d f true))).
Proof.
  intros ax ay cx cy sx sy c data f argsort ts D0 name HB Hsx Hsy H1 H2 m n.
  destruct (binary_unpack _ _ _ _ _ _ _ _ _ HB) as (srs & fe & fne & P0 & HF & HT & HP0 & HP & Hpos).
  destruct (bin_counts ax ay cx cy sx sy c data f HB) as (Le & Ln & Hnb & Ce & Cn & Pe & Pn & _). destruct (tot_pos ax ay cx cy sx sy c data f HB) as [TE TN].
  exists (table_pairs m n f). pose proof (table_tests_neighbours sx sy fe fne srs _ _ f P0 HF HT HP0 HP Hsx Hsy) as TT. fold m n in TT.
  destruct (cramer_defined f (List.length (t_bx f)) Ln Le Hpos) as (v & Ev). cbn [k_analysis binary_kit]. unfold analysis_2d. rewrite Ev.
  eexists. split; [exact TT|]. split; [reflexivity|].
  destruct (C87_binary_statistics ax ay cx cy sx sy c data f sort_ner HB (proj1 C22_hyps_met)) as (gi & iv & js & he & tr & k & Est & _ & _ & I0 & _ & _ & _ & _ & Eiv & _).
  assert (EI : Metrics.table_iv (t_nev f) (t_ev f) = iv) by (unfold stats_2d in Est; now injection Est).
  destruct (C22_ks_hhi_range (t_nev f) (t_ev f) ltac:(lia) Cn Ce TN TE) as (_ & _ & Hh).
  assert (EO : forall p, In p (table_pairs m n f) -> an_obs f p = [[nth (fst p) (t_nev f) 0; nth (snd p) (t_nev f) 0]; [nth (fst p) (t_ev f) 0; nth (snd p) (t_ev f) 0]]%Z).
  { intros [a b] Hp. destruct (proj1 (proj2 (proj2 TT)) a b Hp) as (Ha & Hb & _). unfold an_obs. assert (Hm : an_metric f = List.length (t_bx f)) by (unfold an_metric; lia). rewrite Hm. cbn [fst snd]. now rewrite !firstn_nth. }
  split.
  - unfold an_quality. apply (C22_quality_score_range _ _ _ ); [rewrite EI; exact I0| |exact Hh]. intros p Hp. apply in_map_iff in Hp as (q & <- & _). unfold p_value. destruct (String.eqb name "chi2"); [apply H1|apply H2].
  - unfold an_quality. rewrite EI, Eiv. cbn [build_2d fr_iv fr_share]. unfold table_hhi_norm. f_equal. apply map_ext_in. intros p Hp. rewrite (EO p Hp). unfold p_value. now destruct (String.eqb name "chi2").
Qed.
Print Assumptions C87_binary_analysis.
(** "Supported tests are chi2 and fisher": any other name is accepted and means Fisher's test. *)
Theorem C87_unknown_test_refuted : forall argsort ts m n f D0 name, name <> "chi2"%string -> k_analysis (binary_kit argsort ts m n f D0) name = k_analysis (binary_kit argsort ts m n f D0) "fisher".
Proof. intros argsort ts m n f D0 name H. cbn [k_analysis binary_kit]. unfold analysis_2d, p_value. apply String.eqb_neq in H. rewrite H. reflexivity. Qed.
Print Assumptions C87_unknown_test_refuted.

(** Continuous target: the columns, the totals and the statistics. [mean k]: the mean of the target in row k, 0 if the row is empty;
    [mu]: the overall mean. WoE is the difference, so the statistic woe counts |mu| once more for an empty special (missing) row,
    whereas iv weights a row by its share and is 0 exactly when every row with records has the overall mean. *)
Lemma map2_seq {A B C} (g : A -> B -> C) da db : forall a b n, List.length a = n -> List.length b = n -> map2 g a b = map (fun k => g (nth k a da) (nth k b db)) (seq 0 n).
Proof.
  induction a as [|x a IH]; intros [|y b] [|n] H1 H2; try discriminate; [reflexivity|]. cbn [map2 seq map nth]. f_equal.
  injection H1 as H1. injection H2 as H2. rewrite (IH b n H1 H2), <- seq_shift, map_map. reflexivity.
Qed.
Lemma map_seq_nth {A B} (l : list A) d (g : A -> B) : map g l = map (fun k => g (nth k l d)) (seq 0 (List.length l)).
Proof. induction l as [|x l IH]; [reflexivity|]. cbn [List.length seq map nth]. f_equal. rewrite IH, <- seq_shift, map_map. reflexivity. Qed.
Lemma Q2R_inject z : Q2R (inject_Z z) = IZR z.
Proof. unfold Q2R, inject_Z. cbn [Qnum Qden]. now rewrite Rinv_1, Rmult_1_r. Qed.
Lemma Q2R_qmean a n : (0 < n)%Z -> Q2R (qmean a n) = (IZR a / IZR n)%R.
Proof.
  intros H. unfold qmean. rewrite Q2R_div; [now rewrite !Q2R_inject|]. intros E. apply Qeq_eqR in E. rewrite Q2R_inject in E.
  replace (Q2R 0) with 0%R in E by (unfold Q2R; cbn; lra). apply eq_IZR in E. lia.
Qed.
Lemma Q2R_Qabs q : Q2R (Qabs.Qabs q) = Rabs (Q2R q).
Proof.
  destruct (Qlt_le_dec q 0) as [H|H].
  - rewrite Qabs.Qabs_neg by (now apply Qlt_le_weak). rewrite Q2R_opp. apply Qlt_Rlt in H. rewrite Rabs_left; [reflexivity|]. replace (Q2R 0) with 0%R in H by (unfold Q2R; cbn; lra). exact H.
  - rewrite Qabs.Qabs_pos by exact H. apply Qle_Rle in H. rewrite Rabs_right; [reflexivity|]. replace (Q2R 0) with 0%R in H by (unfold Q2R; cbn; lra). lra.
Qed.
Theorem C87_continuous_statistics : forall ax ay cx cy sx sy c data f welch m n D0 totals, continuous_fit ax ay cx cy sx sy c data f ->
  let nb := List.length (t_bx (k_fit f)) in let rows := seq 0 (nb + 2) in
  let fr := k_build (cont_kit welch m n f D0) totals in
  let N := IZR (zsum (fc_count fr)) in let mu := (IZR (zsum (fc_sum fr)) / N)%R in
  let mean := fun k => if (0 <? nth k (fc_count fr) 0)%Z then (IZR (nth k (fc_sum fr) 0%Z) / IZR (nth k (fc_count fr) 0%Z))%R else 0%R in
  let share := fun k => (IZR (nth k (fc_count fr) 0%Z) / N)%R in
  let woe := rsum (map (fun k => Rabs (mean k - mu)) rows) in
  let iv := rsum (map (fun k => Rabs (mean k - mu) * share k)%R rows) in
  (0 < N)%R /\ List.length (fc_count fr) = nb + 2 /\ List.length (fc_sum fr) = nb + 2 /\
  (forall k, k < nb + 2 -> (0 <= nth k (fc_count fr) 0)%Z) /\ (forall k, k < nb -> (0 < nth k (fc_count fr) 0)%Z) /\
  fc_share fr = map share rows /\ fc_mean fr = map mean rows /\ fc_woe fr = map (fun k => mean k - mu)%R rows /\ fc_iv fr = map (fun k => Rabs (mean k - mu) * share k)%R rows /\
  k_stats (cont_kit welch m n f D0) = [iv; woe] /\
  fc_totals fr = (if totals then Some (mkTot3 (zsum (fc_count fr)) (zsum (fc_sum fr)) mu woe iv) else None) /\
  (0 <= iv <= woe)%R /\ (iv = 0%R <-> forall k, k < nb + 2 -> (0 < nth k (fc_count fr) 0)%Z -> mean k = mu).
Proof.
  intros ax ay cx cy sx sy c data f welch m n D0 totals HB nb rows fr N mu mean share woe iv.
  destruct (cont_counts ax ay cx cy sx sy c data f HB) as (LN & LE & Hnb & CN & PN & Hpos). fold nb in LN, LE, Hnb, Hpos.
  assert (EN : fc_count fr = k_records f) by reflexivity. assert (ES : fc_sum fr = k_sums f) by reflexivity.
  assert (Pn : (0 < N)%R) by (unfold N; rewrite EN; now apply (IZR_lt 0)).
  assert (C0 : forall k, k < nb + 2 -> (0 <= nth k (fc_count fr) 0)%Z) by (intros k Hk; rewrite EN; apply CN, nth_In; lia).
  assert (EM : map Q2R (table_means f) = map mean rows).
  { unfold table_means, mean_column. rewrite (map2_seq _ 0%Z 0%Z _ _ (nb + 2) LN LE), map_map. apply map_ext. intros k. unfold mean. rewrite EN, ES.
    destruct (Z.ltb_spec 0 (nth k (k_records f) 0%Z)); [now apply Q2R_qmean|unfold Q2R; cbn; lra]. }
  assert (EMu : Q2R (total_mean f) = mu) by (unfold total_mean, mu, N; rewrite EN, ES; now apply Q2R_qmean).
  assert (EW : map Q2R (table_woe f) = map (fun k => mean k - mu)%R rows).
  { unfold table_woe. rewrite map_map. transitivity (map (fun x => x - mu)%R (map Q2R (table_means f))); [|rewrite EM, map_map; reflexivity].
    rewrite map_map. apply map_ext. intros q. now rewrite Q2R_minus, EMu. }
  assert (LW : List.length (table_woe f) = nb + 2).
  { apply (f_equal (@List.length R)) in EW. rewrite !map_length in EW. unfold rows in EW. now rewrite seq_length in EW. }
  assert (WK : forall k, k < nb + 2 -> Q2R (nth k (table_woe f) 0%Q) = (mean k - mu)%R).
  { intros k Hk. apply (f_equal (fun l => nth_error l k)) in EW. rewrite !nth_error_map in EW. unfold rows in EW.
    rewrite (nth_error_nth' (table_woe f) 0%Q) in EW by lia. rewrite (nth_error_nth' (seq 0 (nb + 2)) 0) in EW by (rewrite seq_length; lia).
    rewrite seq_nth in EW by lia. cbn [option_map plus] in EW. injection EW as EW. exact EW. }
  assert (EI : map Q2R (table_iv f) = map (fun k => Rabs (mean k - mu) * share k)%R rows).
  { unfold table_iv. rewrite (map2_seq _ 0%Q 0%Z _ _ (nb + 2) LW LN), map_map. apply map_ext_in. intros k Hk. apply in_seq in Hk.
    rewrite Q2R_mult, Q2R_Qabs, (WK k ltac:(lia)). unfold share, N. rewrite EN. f_equal. apply (Q2R_qmean (nth k (k_records f) 0%Z) (zsum (k_records f)) PN). }
  assert (Eiv : cont_iv f = iv) by (unfold cont_iv, iv; now rewrite EI).
  assert (Ewoe : cont_woe f = woe).
  { unfold cont_woe, woe. rewrite <- (map_map Q2R Rabs), EW, map_map. reflexivity. }
  assert (ESh : cont_shares f = map share rows).
  { unfold cont_shares, share, rows. rewrite (map_seq_nth (k_records f) 0%Z (fun v => IZR v / IZR (zsum (k_records f)))%R), LN. reflexivity. }
  assert (SB : forall k, k < nb + 2 -> (0 <= share k <= 1)%R).
  { intros k Hk. destruct (cont_shares_ok ax ay cx cy sx sy c data f HB) as (_ & S2 & _). apply S2. rewrite ESh. apply in_map, in_seq. lia. }
  split; [exact Pn|]. split; [exact LN|]. split; [exact LE|]. split; [exact C0|]. split; [exact Hpos|].
  split; [exact ESh|]. split; [exact EM|]. split; [exact EW|]. split; [exact EI|].
  split; [cbn [k_stats cont_kit]; now rewrite Eiv, Ewoe|].
  split; [cbn [fc_totals fr k_build cont_kit build_3d]; destruct totals; [now rewrite Eiv, Ewoe, EMu|reflexivity]|].
  assert (IN : forall x, In x (map (fun k => Rabs (mean k - mu) * share k)%R rows) -> (0 <= x)%R).
  { intros x Hx. apply in_map_iff in Hx as (k & <- & Hk). apply in_seq in Hk. apply Rmult_le_pos; [apply Rabs_pos|apply SB; lia]. }
  split.
  - split; [now apply rsum_nonneg|]. unfold iv, woe. apply rsum_le. intros k Hk. apply in_seq in Hk. destruct (SB k ltac:(lia)) as [S0 S1]. pose proof (Rabs_pos (mean k - mu)). nra.
  - unfold iv. rewrite (rsum_zero_iff _ IN). split.
    + intros H k Hk Hn. specialize (H _ (in_map _ _ _ (proj2 (in_seq _ _ _) (conj (Nat.le_0_l k) Hk)))). cbv beta in H.
      assert (Sp : (0 < share k)%R) by (unfold share; apply Rmult_lt_0_compat; [now apply (IZR_lt 0)|now apply Rinv_0_lt_compat]).
      apply Rmult_integral in H as [H|H]; [|lra]. destruct (Req_dec (mean k - mu) 0) as [E|E]; [lra|]. now apply Rabs_no_R0 in E.
    + intros H x Hx. apply in_map_iff in Hx as (k & <- & Hk). apply in_seq in Hk. destruct (Z.lt_ge_cases 0 (nth k (fc_count fr) 0%Z)) as [Hp|Hp].
      * rewrite (H k ltac:(lia) Hp). rewrite Rminus_diag_eq by reflexivity. rewrite Rabs_R0. ring.
      * pose proof (C0 k ltac:(lia)). unfold share. replace (nth k (fc_count fr) 0%Z) with 0%Z by lia. unfold Rdiv. ring.
Qed.
Print Assumptions C87_continuous_statistics.

(** Continuous target: analysis() never fails; the quality score is between 0 and 1 unless the test of two neighbouring bins has no
    p-value: then, and only then, it is NaN (None). *)
Theorem C87_continuous_analysis : forall ax ay cx cy sx sy c data f welch D0 name, continuous_fit ax ay cx cy sx sy c data f -> increasing sx -> increasing sy ->
  (forall a b p, welch a b = Some p -> (0 <= p <= 1)%R) ->
  let m := S (List.length sy) in let n := S (List.length sx) in
  exists q, k_analysis (cont_kit welch m n f D0) name = Ok q /\
    (forall v, q = Some v -> (0 <= v <= 1)%R) /\
    (q = None <-> exists a b, neighbours (k_fit f) a b /\ welch (cont_bin f a) (cont_bin f b) = None).
Proof.
  intros ax ay cx cy sx sy c data f welch D0 name HB Hsx Hsy Hw m n.
  destruct (continuous_unpack _ _ _ _ _ _ _ _ _ HB) as (srs & fe & fne & P0 & HF & HT & HP0 & HP & Hpos).
  pose proof (table_tests_neighbours sx sy fe fne srs _ _ (k_fit f) P0 HF HT HP0 HP Hsx Hsy) as (TN & _). fold m n in TN.
  destruct (cont_shares_ok ax ay cx cy sx sy c data f HB) as (S1 & S2 & S3).
  eexists. split; [reflexivity|]. unfold analysis_3d. set (l := map _ (table_pairs m n (k_fit f))). pose proof (all_some_spec l) as HA.
  destruct (all_some l) as [r|]; cbn [option_map].
  - split.
    + intros v E. injection E as <-. apply cont_quality_bounds.
      * pose proof (rsum_abs_nonneg (table_woe f)) as P. unfold cont_woe. destruct (Req_EM_T _ 0) as [|Hz]; [exact P|]. apply Rmult_le_pos; [exact P|]. left. apply Rinv_0_lt_compat. now apply Rabs_pos_lt.
      * intros p Hp. assert (Hin : In (Some p) l) by (rewrite HA; now apply in_map). unfold l in Hin. apply in_map_iff in Hin as (ab & E & _). eapply Hw; eauto.
      * apply hhi_bounds; assumption.
    + split; [discriminate|]. intros (a & b & Hn & E). exfalso. apply TN in Hn. assert (Hin : In None l) by (unfold l; apply in_map_iff; exists (a, b); auto).
      rewrite HA in Hin. apply in_map_iff in Hin as (? & ? & _). discriminate.
  - split; [discriminate|]. split; [|reflexivity]. intros _. unfold l in HA. apply in_map_iff in HA as ((a, b) & E & Hp). exists a, b. split; [now apply TN|exact E].
Qed.
Print Assumptions C87_continuous_analysis.

(** ** The object after any history of calls: what a call answers depends on two facts about the history only, whether build()
    succeeded before and which analysis() succeeded last (the quality score has no check of its own). *)
Theorem C87_history : forall {F} (k : kit F) h c,
  exists q v, last_quality k h q /\ snd (texec2 k new_table (h ++ [c])) = (snd (texec2 k new_table h) ++ [v])%list /\ answer2 k (built_in h) q c v.
Proof.
  intros F k h c. destruct (answers k h c) as (v & A & B). exists (o_quality (state k h)), v. split; [apply (flags k h)|]. split; [exact A|exact B].
Qed.
Print Assumptions C87_history.
(** On a fitted binary table: once built, no valid call fails, and the table, figures and scores are those of the theorems above. *)
Theorem C87_never_fails : forall ax ay cx cy sx sy c data f argsort ts D0 h, binary_fit ax ay cx cy sx sy c data f -> increasing sx -> increasing sy ->
  (forall obs, (0 <= ts_chi2 ts obs <= 1)%R) -> (forall obs, (0 <= ts_fisher ts obs <= 1)%R) ->
  let m := S (List.length sy) in let n := S (List.length sx) in List.length D0 = m * n -> let k := binary_kit argsort ts m n f D0 in
  let answer c := last (snd (texec2 k new_table (h ++ [c]))) (Err OtherError) in
  (forall totals, answer (QBuild None totals) = Ok (QFrame (build_2d f totals))) /\
  (built_in h ->
     (forall i, i < 6 -> answer (QStat i) = Ok (QNumber (Some (nth i (stats_2d argsort f) 0%R)))) /\
     (forall w, exists g, answer (QPlot false w) = Ok (QFigure g) /\ figure_of sx sy f (let fr := build_2d f true in if w then fr_woe fr else fr_rate fr) g) /\
     (forall name, answer (QAnalysis name) = Ok QNone) /\
     ((exists name h1 h2, h = (h1 ++ QAnalysis name :: h2)%list /\ built_in h1) ->
        exists q, answer QQuality = Ok (QNumber (Some q)) /\ (0 <= q <= 1)%R)) /\
  (~ built_in h -> (forall i, answer (QStat i) = Err NotFitted) /\ (forall w, answer (QPlot false w) = Err NotFitted) /\
     answer QQuality = Err NotFitted /\ forall name, answer (QAnalysis name) = Err OtherError).
Proof.
  intros ax ay cx cy sx sy c data f argsort ts D0 h HB Hsx Hsy H1 H2 m n HD k answer.
  assert (A : forall c0, exists q v, last_quality k h q /\ answer c0 = v /\ answer2 k (built_in h) q c0 v).
  { intros c0. destruct (C87_history k h c0) as (q & v & A1 & A2 & A3). exists q, v. split; [exact A1|]. split; [|exact A3]. unfold answer. rewrite A2. apply last_last. }
  assert (AN : forall name, exists q, k_analysis k name = Ok (Some q) /\ (0 <= q <= 1)%R).
  { intros name. destruct (C87_binary_analysis ax ay cx cy sx sy c data f argsort ts D0 name HB Hsx Hsy H1 H2) as (pairs & q & _ & E & Hq & _). eauto. }
  split; [|split].
  - intros totals. destruct (A (QBuild None totals)) as (q & v & _ & -> & E). exact E.
  - intros Hb. split; [|split; [|split]].
    + intros i Hi. destruct (A (QStat i)) as (q & v & _ & -> & [[_ E]|[E _]]); [|contradiction]. apply E. apply nth_error_nth'. exact Hi.
    + intros w. destruct (C87_binary_figure ax ay cx cy sx sy c data f argsort ts D0 w HB Hsx Hsy HD) as (g & Eg & Fg). exists g. split; [|exact Fg].
      destruct (A (QPlot false w)) as (q & v & _ & -> & [[E _]|[(_ & E & _)|(_ & _ & [(g' & E1 & E2)|(e & E1 & _)])]]); [contradiction|discriminate| |]; unfold k in E1; fold m n in Eg; rewrite Eg in E1; [|discriminate].
      injection E1 as ->. exact E2.
    + intros name. destruct (A (QAnalysis name)) as (q & v & _ & -> & [[E _]|(_ & [(q' & E1 & E2)|(e & E1 & _)])]); [contradiction|exact E2|].
      destruct (AN name) as (q0 & E0 & _). rewrite E0 in E1. discriminate.
    + intros (name & h1 & h2 & Eh & Bi). destruct (A QQuality) as (q & v & LQ & -> & E). destruct LQ as [(g1 & g2 & nm & vq & _ & _ & Ka & -> & _)|[Hno _]].
      * destruct (AN nm) as (q0 & E0 & Hq). rewrite E0 in Ka. injection Ka as <-. cbn [answer2] in E. eauto.
      * exfalso. destruct (AN name) as (q0 & E0 & _). exact (Hno h1 h2 name Eh Bi (Some q0) E0).
  - intros Hb. split; [|split; [|split]].
    + intros i. destruct (A (QStat i)) as (q & v & _ & -> & [[E _]|[_ E]]); [contradiction|exact E].
    + intros w. destruct (A (QPlot false w)) as (q & v & _ & -> & [[_ E]|[(E & _)|(E & _)]]); [exact E|contradiction|contradiction].
    + destruct (A QQuality) as (q & v & LQ & -> & E). destruct LQ as [(g1 & g2 & nm & vq & Eh & Bi & _)|[_ ->]]; [|exact E]. exfalso. apply Hb. destruct Bi as (b & Hin). exists b. rewrite Eh. apply in_app_iff. now left.
    + intros name. destruct (A (QAnalysis name)) as (q & v & _ & -> & [[_ E]|[E _]]); [exact E|contradiction].
Qed.
Print Assumptions C87_never_fails.

(** With scipy's Welch test the quality score of a fitted continuous table is NaN exactly when two neighbouring bins have deviation 0
    and the same mean. *)
Theorem C87_continuous_nan : forall ax ay cx cy sx sy c data f welch D0 name, continuous_fit ax ay cx cy sx sy c data f -> increasing sx -> increasing sy ->
  welch_scipy welch ->
  k_analysis (cont_kit welch (S (List.length sy)) (S (List.length sx)) f D0) name = Ok None <->
  exists a b, neighbours (k_fit f) a b /\ sqrt (Q2R (nth a (k_var f) 0%Q)) = 0%R /\ sqrt (Q2R (nth b (k_var f) 0%Q)) = 0%R /\
    Q2R (nth a (table_means f) 0%Q) = Q2R (nth b (table_means f) 0%Q).
Proof.
  intros ax ay cx cy sx sy c data f welch D0 name HB Hsx Hsy [W1 W2].
  destruct (C87_continuous_analysis ax ay cx cy sx sy c data f welch D0 name HB Hsx Hsy W1) as (q & E & _ & Hn). rewrite E.
  assert (X : Ok q = Ok None <-> q = None) by (split; [intros A; now injection A|now intros ->]). rewrite X, Hn.
  apply exists_iff. intros a. apply exists_iff. intros b. apply and_iff. intros _. rewrite W2. unfold cont_bin. cbn [fst snd]. reflexivity.
Qed.
Print Assumptions C87_continuous_nan.
Definition nan_data : list sample3 := [ (XNum 1, XNum 1, 10); (XNum 5, XNum 1, 10); (XNum 1, XNum 5, 20); (XNum 5, XNum 5, 30) ]%Z.
Definition nan_sizes : size_cfg := {| min_size := None; max_size := None; min_ev := None; max_ev := None; min_nev := None; max_nev := None |}.
Definition nan_cfg : cfg2 := {| trend_x := None; trend_y := None; min_bins2 := Some 4%Z; max_bins2 := Some 4%Z; diff_x := 0; diff_y := 0; gamma2 := false |}.
Theorem C87_continuous_quality_nan_refuted : forall welch D0, welch_scipy welch -> exists f,
  fit3 ANum ANum None None ex3_pre ex3_pre nan_sizes (brute nan_cfg) (fun k => repeat 7 k) nan_data = Ok f /\
  k_analysis (cont_kit welch 2 2 f D0) "chi2" = Ok None.
Proof.
  intros welch D0 HW. eexists. split; [vm_compute; reflexivity|]. set (f := Build_fitted3 _ _).
  assert (HB : continuous_fit ANum ANum None None [3%Z] [3%Z] nan_cfg nan_data f).
  { exists ex3_pre, ex3_pre, (fun _ => Leaf), nan_sizes, (brute nan_cfg), (fun k => repeat 7 k). split; [reflexivity|]. split; [reflexivity|]. split; [apply brute_sound|].
    split; [intros k; apply repeat_length|]. left. vm_compute. reflexivity. }
  apply (C87_continuous_nan ANum ANum None None [3%Z] [3%Z] nan_cfg nan_data f welch D0 "chi2" HB); [repeat constructor|repeat constructor|exact HW|].
  assert (Z0 : forall q, q == 0 -> sqrt (Q2R q) = 0%R) by (intros q Hq; apply Qeq_eqR in Hq; rewrite Hq, RMicromega.Q2R_0; apply sqrt_0).
  exists 0, 1. split; [left|].
  - exists None, 3%Z, None. split; [reflexivity|]. split; [reflexivity|]. exists 0%Z. vm_compute. intuition (try discriminate; try exact I).
  - split; [apply Z0; vm_compute; reflexivity|]. split; [apply Z0; vm_compute; reflexivity|]. apply Qeq_eqR. vm_compute. reflexivity.
Qed.
Print Assumptions C87_continuous_quality_nan_refuted.

(** Non-trivial cases: the fitted tables of C46 and C60 (2 x 2 grids, four bins, special and missing rows), tests with constant p-values. *)
Example C87_hyps_met : exists f f3,
  binary_fit ANum ANum codes_x None [3%Z] [3%Z] ex_cfg ex_data f /\ continuous_fit ANum ANum (Some [XNum 99%Z]) None [3%Z] [3%Z] ex3_cfg ex3_data f3 /\
  increasing [3%Z] /\ argsort_ok sort_ner /\ t_P f = [0; 1; 2; 3] /\ t_ev f = [1; 2; 2; 3; 1; 2]%Z /\ t_nev f = [1; 1; 1; 1; 1; 0]%Z /\
  fg_numbers (match plot_2d 2 2 (t_P f) [1; 2; 3; 4]%R [5; 6; 7; 8]%R with Ok g => g | Err _ => mkFig [] [] [] [] end) = [[0; 1]; [2; 3]] /\
  built_in [QBuild None true; QAnalysis "chi2"].
Proof.
  eexists. eexists. split.
  { exists ex_pre, ex_pre, (fun _ => Leaf), ex_sizes, (brute ex_cfg), (fun k => repeat 7 k). split; [reflexivity|]. split; [reflexivity|]. split; [apply brute_sound|].
    split; [intros k; apply repeat_length|]. left. vm_compute. reflexivity. }
  split.
  { exists ex3_pre, ex3_pre, (fun _ => Leaf), ex3_sizes, (brute ex3_cfg), (fun k => repeat 7 k). split; [reflexivity|]. split; [reflexivity|]. split; [apply brute_sound|].
    split; [intros k; apply repeat_length|]. left. vm_compute. reflexivity. }
  split; [repeat constructor|]. split; [apply C22_hyps_met|]. split; [reflexivity|]. split; [reflexivity|]. split; [reflexivity|]. split; [reflexivity|]. exists true. now left.
Qed.
Example C87_welch_met : exists welch, welch_scipy welch.
Proof.
  exists (fun a b => if Req_EM_T (snd (fst a)) 0 then if Req_EM_T (snd (fst b)) 0 then if Req_EM_T (fst (fst a)) (fst (fst b)) then None else Some 0%R else Some (1/2)%R else Some (1/2)%R).
  split; intros a b; [intros p|]; destruct (Req_EM_T (snd (fst a)) 0), (Req_EM_T (snd (fst b)) 0), (Req_EM_T (fst (fst a)) (fst (fst b)));
    try (intros E; injection E as <-; lra); try discriminate; intuition (try discriminate; try congruence).
Qed.
