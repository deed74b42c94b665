(** C60: two-dimensional optimal binning of a continuous target (strategy "grid"), and the event rate metric of C46. *)
From Coq Require Import List ZArith QArith Qabs Lia Lqa Bool Arith Permutation Sorting.
From Verif Require Import Model.Arr Model.Core Model.TwoD Model.TwoDCont Spec.CoreSpec Spec.TwoDSpec Spec.TwoDContSpec
  Proofs.ArrP Proofs.CoreP Proofs.TwoDP Proofs.TwoDQ Proofs.TwoDR Proofs.TwoDS Proofs.TwoDT Proofs.TwoDU Proofs.TwoDV Proofs.TwoDC Proofs.TwoDCR.
Import ListNotations.
Open Scope nat_scope.

(** Every pair of known values without a special code lies in exactly one bin of the table; transform returns its index. *)
Theorem C60_bins_partition_plane : forall ax ay cx cy pre_x pre_y g c solver P0 data f ms mm x y,
  fit3 ax ay cx cy pre_x pre_y g solver P0 data = Ok f -> sound_solver2 c solver ->
  (forall k, length (P0 k) = k) -> (forall l, nondecreasing (pre_x l)) -> (forall l, nondecreasing (pre_y l)) ->
  known ax x -> known ay y -> no_code cx x -> no_code cy y ->
  let bx := t_bx (k_fit f) in let by' := t_by (k_fit f) in
  exists b, b < length bx /\ shows ax bx b x /\ shows ay by' b y /\
    (forall b', shows ax bx b' x -> shows ay by' b' y -> b' = b) /\
    transform3_indices ax ay cx cy f ms mm x y = Ok (Z.of_nat b).
Proof.
  intros ax ay cx cy pre_x pre_y g c solver P0 data f ms mm x y Hfit Hs HP0 Hpx Hpy Kx Ky Cx Cy bx by'.
  destruct (fit3_unpack ax ay cx cy pre_x pre_y g c solver P0 data f Hfit Hs HP0) as (srs & HV & HF & _).
  destruct (the_bin _ _ _ _ _ _ _ (k_fit f) ax ay HF (proj1 HV) (Hpx _) (Hpy _) x y Kx Ky) as (b & Hb & Hin & Hu & _).
  destruct (bins_length _ _ _ _ _ _ _ _ HF) as [L1 L2].
  exists b. split; [unfold bx; lia|]. pose proof Hin as (iv & jv & H1 & H2 & H3). apply andb_true_iff in H3 as [H3 H4].
  split; [apply shows_in_axis; [eapply known_num; eauto|eauto]|]. split; [apply shows_in_axis; [eapply known_num; eauto|eauto]|]. split.
  - intros b' Hx Hy. apply shows_in_axis in Hx as (iv' & Hx1 & Hx2); [|eapply known_num; eauto].
    apply shows_in_axis in Hy as (jv' & Hy1 & Hy2); [|eapply known_num; eauto]. apply (Hu b' iv' jv' Hx1 Hy1). now rewrite Hx2, Hy2.
  - apply transform2_clean; try assumption; try (eapply known_num; eauto). lia.
Qed.
Print Assumptions C60_bins_partition_plane.

(** The row of bin b shows the number of training samples that transform sends to b, the sum of their targets and, as the
    square of "Std", their mean squared deviation; the last two rows describe the special and the missing samples. *)
Theorem C60_table_rows : forall ax ay cx cy pre_x pre_y g c solver P0 data f,
  fit3 ax ay cx cy pre_x pre_y g solver P0 data = Ok f -> sound_solver2 c solver ->
  (forall k, length (P0 k) = k) -> (forall l, nondecreasing (pre_x l)) -> (forall l, nondecreasing (pre_y l)) ->
  axis_ok ax (map c_x (filter (clean3 cx cy) data)) -> axis_ok ay (map c_y (filter (clean3 cx cy) data)) ->
  let nb := length (t_bx (k_fit f)) in
  let row := fun b l => nth_error (k_records f) b = Some (count3 l) /\ nth_error (k_sums f) b = Some (total3 l) /\
                        exists v, nth_error (k_var f) b = Some v /\ v == sq_dev3 l in
  (forall b, b < nb -> row b (filter (lands3 ax ay cx cy f b) data) /\ filter (lands3 ax ay cx cy f b) data <> []) /\
  row nb (filter (special3 cx cy) data) /\ row (S nb) (filter missing3 data) /\
  length (k_records f) = nb + 2 /\ length (k_sums f) = nb + 2 /\ length (k_var f) = nb + 2 /\ length (t_by (k_fit f)) = nb.
Proof.
  intros ax ay cx cy pre_x pre_y g c solver P0 data f Hfit Hs HP0 Hpx Hpy Ax Ay nb row.
  destruct (fit3_unpack ax ay cx cy pre_x pre_y g c solver P0 data f Hfit Hs HP0) as (srs & HV & HF & HVar).
  destruct (bins_length _ _ _ _ _ _ _ _ HF) as [L1 L2]. pose proof (proj1 HV) as HT.
  set (clean := filter (clean3 cx cy) data) in *. set (sx := pre_x clean) in *. set (sy := pre_y clean) in *.
  split; [|].
  - intros b Hb. unfold nb in Hb. rewrite L1 in Hb. destruct (nth_error srs b) as [r|] eqn:Er; [|apply nth_error_None in Er; lia].
    assert (Hr : rect_ok (S (length sy)) (S (length sx)) r) by (apply (proj1 HT); eapply nth_error_In; eauto).
    pose proof (proj1 (proj2 HV) r (nth_error_In _ _ Er)) as Hok. cbv beta in Hok.
    unfold admissible_cont in Hok. rewrite cell_sum_rect3 in Hok by exact Hr. rewrite zsum_one3 in Hok.
    pose proof (group3 ax ay cx cy sx sy _ _ srs _ _ f data HF HT (Hpx _) (Hpy _) Ax Ay b r Er) as G. fold clean in G.
    rewrite <- G in Hok. assert (NE : filter (lands3 ax ay cx cy f b) data <> []).
    { intros E. rewrite E in Hok. discriminate Hok. }
    split; [|exact NE]. unfold row, k_records, k_sums.
    rewrite (fo_ne _ _ _ _ _ _ _ _ HF), (fo_e _ _ _ _ _ _ _ _ HF), HVar.
    rewrite !nth_error_app1 by (now rewrite map_length). rewrite !nth_error_map, Er. cbn [option_map]. unfold var_of.
    rewrite !cell_sum_rect3 by exact Hr. rewrite zsum_one3, <- G. split; [reflexivity|]. split; [reflexivity|].
    eexists. split; [reflexivity|]. symmetry. apply sq_dev3_eq. exact NE.
  - unfold row, k_records, k_sums, nb. rewrite (fo_ne _ _ _ _ _ _ _ _ HF), (fo_e _ _ _ _ _ _ _ _ HF), HVar, L1.
    rewrite !nth_error_app2 by (rewrite map_length; lia). rewrite !map_length, !Nat.sub_diag, !app_length, !map_length, L2.
    replace (S (length srs) - length srs) with 1 by lia. cbn [nth_error length]. unfold info3. cbn [fst snd].
    rewrite !np_var_dev.
    split; [|split; [|split; [lia|split; [lia|split; [lia|reflexivity]]]]]; (split; [reflexivity|split; [reflexivity|eexists; split; [reflexivity|apply Qeq_refl]]]).
Qed.
Print Assumptions C60_table_rows.

(** "Std" is the square root of a nonnegative number, so it is never nan. *)
Theorem C60_std_defined : forall ax ay cx cy pre_x pre_y g c solver P0 data f,
  fit3 ax ay cx cy pre_x pre_y g solver P0 data = Ok f -> sound_solver2 c solver ->
  (forall k, length (P0 k) = k) -> (forall l, nondecreasing (pre_x l)) -> (forall l, nondecreasing (pre_y l)) ->
  axis_ok ax (map c_x (filter (clean3 cx cy) data)) -> axis_ok ay (map c_y (filter (clean3 cx cy) data)) ->
  forall v, In v (k_var f) -> (0 <= v)%Q.
Proof.
  intros ax ay cx cy pre_x pre_y g c solver P0 data f Hfit Hs HP0 Hpx Hpy Ax Ay v Hv.
  destruct (C60_table_rows ax ay cx cy pre_x pre_y g c solver P0 data f Hfit Hs HP0 Hpx Hpy Ax Ay) as (H1 & H2 & H3 & _ & _ & L & _).
  apply In_nth_error in Hv as (b & Hb). assert (b < length (k_var f)) by (apply nth_error_Some; congruence).
  assert (exists l, v == sq_dev3 l) as (l & ->); [|apply sq_dev3_nonneg].
  destruct (Nat.lt_ge_cases b (length (t_bx (k_fit f)))) as [Hl|Hl].
  - destruct (H1 b Hl) as ((_ & _ & w & Hw & E) & _). rewrite Hb in Hw. injection Hw as ->. eauto.
  - destruct (Nat.eq_dec b (length (t_bx (k_fit f)))) as [->|Hne].
    + destruct H2 as (_ & _ & w & Hw & E). rewrite Hb in Hw. injection Hw as ->. eauto.
    + assert (b = S (length (t_bx (k_fit f)))) as -> by lia. destruct H3 as (_ & _ & w & Hw & E). rewrite Hb in Hw. injection Hw as ->. eauto.
Qed.
Print Assumptions C60_std_defined.

(** Bins that share a split along one axis and overlap along the other have means in the order of the trend, more than
    min_mean_diff apart. *)
Theorem C60_monotone_x : forall ax ay cx cy pre_x pre_y g c solver P0 data f b b' lo s hi,
  fit3 ax ay cx cy pre_x pre_y g solver P0 data = Ok f -> sound_solver2 c solver ->
  (forall k, length (P0 k) = k) -> (forall l, increasing (pre_x l)) -> (forall l, nondecreasing (pre_y l)) ->
  nth_error (t_bx (k_fit f)) b = Some (lo, Some s) -> nth_error (t_bx (k_fit f)) b' = Some (Some s, hi) ->
  (exists v, in_interval (t_by (k_fit f)) b v /\ in_interval (t_by (k_fit f)) b' v) ->
  follows (trend_x c) (diff_x c) (row_mean f b) (row_mean f b').
Proof.
  intros ax ay cx cy pre_x pre_y g c solver P0 data f b b' lo s hi Hfit Hs HP0 Hpx Hpy Hb Hb' (v & Hv & Hv').
  destruct (fit3_unpack ax ay cx cy pre_x pre_y g c solver P0 data f Hfit Hs HP0) as (srs & HV & HF & _).
  pose proof (proj1 HV) as HT. destruct HV as (_ & _ & _ & _ & HX & _).
  set (sx := pre_x (filter (clean3 cx cy) data)) in *. set (sy := pre_y (filter (clean3 cx cy) data)) in *.
  rewrite (fo_x _ _ _ _ _ _ _ _ HF), nth_error_map in Hb, Hb'.
  destruct (nth_error srs b) as [r|] eqn:Er; [|discriminate]. destruct (nth_error srs b') as [r'|] eqn:Er'; [|discriminate].
  cbn [option_map] in Hb, Hb'. injection Hb as _ E1. injection Hb' as E2 _.
  unfold in_interval in Hv, Hv'. rewrite (fo_y _ _ _ _ _ _ _ _ HF), nth_error_map in Hv, Hv'. rewrite Er in Hv. rewrite Er' in Hv'. cbn [option_map] in Hv, Hv'.
  pose proof (proj1 HT r (nth_error_In _ _ Er)) as (Hk & Hl & Hm & Hn). pose proof (proj1 HT r' (nth_error_In _ _ Er')) as (Hk' & Hl' & Hm' & Hn').
  apply (in_bin_edges sy) in Hv; [|apply Hpy|lia|lia]. apply (in_bin_edges sy) in Hv'; [|apply Hpy|lia|lia].
  assert (Ha : adj_x r r').
  { split; [exact (edge_inj sx _ _ s (Hpx _) E1 E2)|]. exists (digitize sy v). lia. }
  rewrite (row_mean_q3 _ _ _ _ _ _ _ _ b r HF Er), (row_mean_q3 _ _ _ _ _ _ _ _ b' r' HF Er').
  exact (HX r r' (nth_error_In _ _ Er) (nth_error_In _ _ Er') Ha).
Qed.
Print Assumptions C60_monotone_x.
Theorem C60_monotone_y : forall ax ay cx cy pre_x pre_y g c solver P0 data f b b' lo s hi,
  fit3 ax ay cx cy pre_x pre_y g solver P0 data = Ok f -> sound_solver2 c solver ->
  (forall k, length (P0 k) = k) -> (forall l, nondecreasing (pre_x l)) -> (forall l, increasing (pre_y l)) ->
  nth_error (t_by (k_fit f)) b = Some (lo, Some s) -> nth_error (t_by (k_fit f)) b' = Some (Some s, hi) ->
  (exists v, in_interval (t_bx (k_fit f)) b v /\ in_interval (t_bx (k_fit f)) b' v) ->
  follows (trend_y c) (diff_y c) (row_mean f b) (row_mean f b').
Proof.
  intros ax ay cx cy pre_x pre_y g c solver P0 data f b b' lo s hi Hfit Hs HP0 Hpx Hpy Hb Hb' (v & Hv & Hv').
  destruct (fit3_unpack ax ay cx cy pre_x pre_y g c solver P0 data f Hfit Hs HP0) as (srs & HV & HF & _).
  pose proof (proj1 HV) as HT. destruct HV as (_ & _ & _ & _ & _ & HY).
  set (sx := pre_x (filter (clean3 cx cy) data)) in *. set (sy := pre_y (filter (clean3 cx cy) data)) in *.
  rewrite (fo_y _ _ _ _ _ _ _ _ HF), nth_error_map in Hb, Hb'.
  destruct (nth_error srs b) as [r|] eqn:Er; [|discriminate]. destruct (nth_error srs b') as [r'|] eqn:Er'; [|discriminate].
  cbn [option_map] in Hb, Hb'. injection Hb as _ E1. injection Hb' as E2 _.
  unfold in_interval in Hv, Hv'. rewrite (fo_x _ _ _ _ _ _ _ _ HF), nth_error_map in Hv, Hv'. rewrite Er in Hv. rewrite Er' in Hv'. cbn [option_map] in Hv, Hv'.
  pose proof (proj1 HT r (nth_error_In _ _ Er)) as (Hk & Hl & Hm & Hn). pose proof (proj1 HT r' (nth_error_In _ _ Er')) as (Hk' & Hl' & Hm' & Hn').
  apply (in_bin_edges sx) in Hv; [|apply Hpx|lia|lia]. apply (in_bin_edges sx) in Hv'; [|apply Hpx|lia|lia].
  assert (Ha : adj_y r r').
  { split; [exact (edge_inj sy _ _ s (Hpy _) E1 E2)|]. exists (digitize sx v). lia. }
  rewrite (row_mean_q3 _ _ _ _ _ _ _ _ b r HF Er), (row_mean_q3 _ _ _ _ _ _ _ _ b' r' HF Er').
  exact (HY r r' (nth_error_In _ _ Er) (nth_error_In _ _ Er') Ha).
Qed.
Print Assumptions C60_monotone_y.

(** Number of bins within [min_n_bins, max_n_bins]; every bin has records, and as many as min/max_bin_size ask for. *)
Theorem C60_limits : forall ax ay cx cy pre_x pre_y g c solver P0 data f,
  fit3 ax ay cx cy pre_x pre_y g solver P0 data = Ok f -> sound_solver2 c solver -> (forall k, length (P0 k) = k) ->
  let nb := length (t_bx (k_fit f)) in
  (forall lo, min_bins2 c = Some lo -> (lo <= Z.of_nat nb)%Z) /\ (forall hi, max_bins2 c = Some hi -> (Z.of_nat nb <= hi)%Z) /\
  forall b, b < nb -> let n := nth b (k_records f) 0%Z in
    (0 < n)%Z /\ (forall lo, min_size g = Some lo -> (lo <= n)%Z) /\ (forall hi, max_size g = Some hi -> (n <= hi)%Z).
Proof.
  intros ax ay cx cy pre_x pre_y g c solver P0 data f Hfit Hs HP0 nb.
  destruct (fit3_unpack ax ay cx cy pre_x pre_y g c solver P0 data f Hfit Hs HP0) as (srs & HV & HF & _).
  pose proof (proj1 HV) as HT. destruct HV as (_ & Hok & H1 & H2 & _). destruct (bins_length _ _ _ _ _ _ _ _ HF) as [L1 L2].
  unfold nb. rewrite L1. split; [intros lo E; now rewrite E in H1|]. split; [intros hi E; now rewrite E in H2|]. intros b Hb. set (n := nth b (k_records f) 0%Z).
  destruct (nth_error srs b) as [r|] eqn:Er; [|apply nth_error_None in Er; lia].
  specialize (Hok r (nth_error_In _ _ Er)). cbv beta in Hok. unfold admissible_cont in Hok.
  pose proof (proj1 HT r (nth_error_In _ _ Er)) as Hr.
  assert (En : n = cell_sum (matrix3 ax ay (pre_x (filter (clean3 cx cy) data)) (pre_y (filter (clean3 cx cy) data)) one3 (filter (clean3 cx cy) data)) (cells (S (length (pre_x (filter (clean3 cx cy) data)))) r)).
  { unfold n, k_records. rewrite (fo_ne _ _ _ _ _ _ _ _ HF), app_nth1 by (now rewrite map_length). erewrite nth_error_nth; [reflexivity|]. rewrite nth_error_map, Er; reflexivity. }
  rewrite <- En in Hok. assert (0 <= n)%Z by (rewrite En, cell_sum_rect3, zsum_one3 by exact Hr; lia). clear En.
  rewrite !andb_true_iff in Hok. destruct Hok as [[Hz A1] A2]. apply negb_true_iff, Z.eqb_neq in Hz.
  split; [lia|]. split; [intros lo E; rewrite E in A1; now apply Z.leb_le|intros hi E; rewrite E in A2; now apply Z.leb_le].
Qed.
Print Assumptions C60_limits.

(** transform with metric "mean" returns the mean target of the training samples that share the bin of the new pair. *)
Theorem C60_mean_transform : forall ax ay cx cy pre_x pre_y g c solver P0 data f ms mm x y,
  fit3 ax ay cx cy pre_x pre_y g solver P0 data = Ok f -> sound_solver2 c solver ->
  (forall k, length (P0 k) = k) -> (forall l, nondecreasing (pre_x l)) -> (forall l, nondecreasing (pre_y l)) ->
  axis_ok ax (map c_x (filter (clean3 cx cy) data)) -> axis_ok ay (map c_y (filter (clean3 cx cy) data)) ->
  known ax x -> known ay y -> no_code cx x -> no_code cy y ->
  exists b, transform3_indices ax ay cx cy f Empirical Empirical x y = Ok (Z.of_nat b) /\
    filter (lands3 ax ay cx cy f b) data <> [] /\
    transform3_mean ax ay cx cy f ms mm x y = Ok (mean3 (filter (lands3 ax ay cx cy f b) data)).
Proof.
  intros ax ay cx cy pre_x pre_y g c solver P0 data f ms mm x y Hfit Hs HP0 Hpx Hpy Ax Ay Kx Ky Cx Cy.
  destruct (C60_table_rows ax ay cx cy pre_x pre_y g c solver P0 data f Hfit Hs HP0 Hpx Hpy Ax Ay) as (H1 & _).
  destruct (fit3_unpack ax ay cx cy pre_x pre_y g c solver P0 data f Hfit Hs HP0) as (srs & HV & HF & _).
  destruct (the_bin _ _ _ _ _ _ _ (k_fit f) ax ay HF (proj1 HV) (Hpx _) (Hpy _) x y Kx Ky) as (b & Hb & Hin & Hu & _).
  destruct (bins_length _ _ _ _ _ _ _ _ HF) as [L1 L2]. rewrite <- L1 in Hb.
  destruct (H1 b Hb) as ((R1 & R2 & _) & NE). exists b. split; [|split; [exact NE|]].
  - apply transform2_clean; try assumption; eapply known_num; eauto.
  - unfold transform3_mean. apply (transform2_value ax ay cx cy (k_fit f) ms mm _ 0%Q x y b);
      try assumption; try (eapply known_num; eauto).
    unfold mean_column. erewrite column_nth; [|rewrite cut_nth by exact Hb; exact R1|rewrite cut_nth by exact Hb; exact R2].
    unfold mean3, qmean. destruct (filter (lands3 ax ay cx cy f b) data) as [|s l] eqn:El; [congruence|].
    replace (0 <? count3 (s :: l))%Z with true; [reflexivity|]. symmetry. apply Z.ltb_lt. unfold count3. cbn [length]. lia.
Qed.
Print Assumptions C60_mean_transform.
(** Special and missing pairs: the mean of the special (missing) training samples, 0 if there are none, or the number given. *)
Theorem C60_mean_special_missing : forall ax ay cx cy pre_x pre_y g c solver P0 data f ms mm x y,
  fit3 ax ay cx cy pre_x pre_y g solver P0 data = Ok f -> sound_solver2 c solver ->
  (forall k, length (P0 k) = k) -> (forall l, nondecreasing (pre_x l)) -> (forall l, nondecreasing (pre_y l)) ->
  axis_ok ax (map c_x (filter (clean3 cx cy) data)) -> axis_ok ay (map c_y (filter (clean3 cx cy) data)) ->
  (x = XNaN \/ y = XNaN -> transform3_mean ax ay cx cy f ms mm x y =
     Ok (match mm with Empirical => mean3 (filter missing3 data) | Const _ v => v end)) /\
  (x <> XNaN -> y <> XNaN -> ~ (no_code cx x /\ no_code cy y) -> transform3_mean ax ay cx cy f ms mm x y =
     Ok (match ms with Empirical => mean3 (filter (special3 cx cy) data) | Const _ v => v end)).
Proof.
  intros ax ay cx cy pre_x pre_y g c solver P0 data f ms mm x y Hfit Hs HP0 Hpx Hpy Ax Ay.
  destruct (C60_table_rows ax ay cx cy pre_x pre_y g c solver P0 data f Hfit Hs HP0 Hpx Hpy Ax Ay) as (_ & (S1 & S2 & _) & (M1 & M2 & _) & _).
  assert (V : forall b l, nth_error (k_records f) b = Some (count3 l) -> nth_error (k_sums f) b = Some (total3 l) -> ms = Empirical \/ mm = Empirical ->
     idx (mean_column (cut ms mm (length (t_bx (k_fit f))) (k_records f)) (cut ms mm (length (t_bx (k_fit f))) (k_sums f))) b = Ok (mean3 l)).
  { intros b l E1 E2 He. rewrite !cut_empirical by exact He. unfold idx, mean_column. erewrite column_nth by eassumption.
    unfold mean3, qmean. destruct l as [|s l]; [reflexivity|].
    replace (0 <? count3 (s :: l))%Z with true; [reflexivity|]. symmetry. apply Z.ltb_lt. unfold count3. cbn [length]. lia. }
  split.
  - intros H. unfold transform3_mean. rewrite transform2_value_missing by exact H. destruct mm; [apply V; auto|reflexivity].
  - intros Hx Hy H. unfold transform3_mean. rewrite transform2_value_special; try assumption.
    + destruct ms; [apply V; auto|reflexivity].
    + destruct (special2 cx cy (x, y, Y0)) eqn:E; [reflexivity|]. exfalso. apply H. exact (special2_false _ _ _ _ _ E).
Qed.
Print Assumptions C60_mean_special_missing.

(** The solutions of the constraint model are exactly the valid tilings, so an optimal solution beats every valid tiling. *)
Theorem C60_optimal : forall m n c fr fs nrec ok w sol ts, 0 < n -> gamma2 c = false ->
  let rs := rects_of m n ok in let rd := grid_rdata m n ok in
  let mean := fun r => (inject_Z (cell_sum fs (cells n r)) / inject_Z (cell_sum fr (cells n r)))%Q in
  let valid := valid_tiling m n c (fun r => ok (cells n r) = true) mean in
  let feasible := feasible2 m n c rd (means_of fr fs (rd_rows rd)) nrec in
  feasible sol -> (forall sol', feasible sol' -> (objective2 (map w rs) sol' <= objective2 (map w rs) sol)%Z) ->
  valid (select sol rs) /\ (valid ts -> (zsum (map w ts) <= zsum (map w (select sol rs)))%Z).
Proof.
  intros m n c fr fs nrec ok w sol ts Hn Hg rs rd mean valid feasible Hf Hopt.
  assert (Er : means_of fr fs (rd_rows rd) = map mean rs) by (unfold means_of, rd, grid_rdata; cbn [rd_rows]; now rewrite map_map).
  unfold feasible in *. rewrite Er in *. split; [exact (feasible2_valid_q m n c mean nrec ok sol Hn Hf)|]. intros Hts.
  destruct (feasible2_complete_q m n c mean nrec ok ts Hn Hg Hts) as (sol' & Hf' & HP).
  specialize (Hopt sol' Hf'). rewrite !objective2_sum in Hopt. fold rs in HP.
  rewrite <- (zsum_perm _ _ (Permutation_map w HP)). exact Hopt.
Qed.
Print Assumptions C60_optimal.

(** With the weights of the code (deviation of the rectangle's mean from the mean of all records in the grid, scaled by 10^6 and
    truncated), the sum of the deviations of the answer is at most (number of rectangles)/10^6 below that of any valid tiling. *)
Theorem C60_optimal_deviation : forall m n c fr fs nrec ok sol ts, 0 < n -> gamma2 c = false ->
  let rs := rects_of m n ok in let rd := grid_rdata m n ok in
  let mean := fun r => (inject_Z (cell_sum fs (cells n r)) / inject_Z (cell_sum fr (cells n r)))%Q in
  let deviation := fun r => Qabs (mean r - inject_Z (zsum fs) / inject_Z (zsum fr))%Q in
  let total := fun l => fold_right Qplus 0%Q (map deviation l) in
  let valid := valid_tiling m n c (fun r => ok (cells n r) = true) mean in
  let feasible := feasible2 m n c rd (means_of fr fs (rd_rows rd)) nrec in
  let w := fun r => weight3 1000000 fr fs (cells n r) in
  feasible sol -> (forall sol', feasible sol' -> (objective2 (map w rs) sol' <= objective2 (map w rs) sol)%Z) ->
  valid ts -> (total ts <= total (select sol rs) + inject_Z (Z.of_nat (length ts)) / 1000000)%Q.
Proof.
  intros m n c fr fs nrec ok sol ts Hn Hg rs rd mean deviation total valid feasible w Hf Hopt Hts.
  destruct (C60_optimal m n c fr fs nrec ok w sol ts Hn Hg Hf Hopt) as [_ HO]. specialize (HO Hts).
  assert (W : forall r, (inject_Z (w r) <= deviation r * 1000000 /\ deviation r * 1000000 <= inject_Z (w r) + 1)%Q).
  { intros r. unfold w, weight3, deviation, mean, qmean. set (d := (_ - _)%Q). clearbody d. destruct d as [a b]. unfold Qabs, Qle, inject_Z. cbn [Qnum Qden Qmult Qplus].
    pose proof (Z.div_mod (Z.abs a * 1000000) (Z.pos b) ltac:(lia)) as E. pose proof (Z.mod_pos_bound (Z.abs a * 1000000) (Z.pos b) ltac:(lia)) as M.
    set (q := (Z.abs a * 1000000 / Z.pos b)%Z) in *. rewrite !Pos2Z.inj_mul. split; nia. }
  assert (T : forall l, (inject_Z (zsum (map w l)) <= total l * 1000000 /\ total l * 1000000 <= inject_Z (zsum (map w l)) + inject_Z (Z.of_nat (length l)))%Q).
  { unfold total. induction l as [|r l [I1 I2]]; [cbn; split; discriminate|]. destruct (W r) as [W1 W2]. cbn [map zsum fold_right length].
    rewrite Nat2Z.inj_succ. unfold Z.succ. rewrite !inject_Z_plus. change (inject_Z 1) with 1%Q. split; lra. }
  destruct (T ts) as [_ T1]. destruct (T (select sol rs)) as [T2 _].
  assert (HO2 : (inject_Z (zsum (map w ts)) <= inject_Z (zsum (map w (select sol rs))))%Q) by (rewrite <- Zle_Qle; exact HO).
  assert (total ts * 1000000 <= total (select sol rs) * 1000000 + inject_Z (Z.of_nat (length ts)))%Q by lra.
  unfold Qdiv. change (/ 1000000)%Q with (1#1000000)%Q. lra.
Qed.
Print Assumptions C60_optimal_deviation.

(** The deviations of the row means from the total mean, weighted by the counts, cancel. *)
Theorem C60_deviations_cancel : forall ax ay cx cy pre_x pre_y g c solver P0 data f,
  fit3 ax ay cx cy pre_x pre_y g solver P0 data = Ok f -> sound_solver2 c solver ->
  (forall k, length (P0 k) = k) -> (forall l, nondecreasing (pre_x l)) -> (forall l, nondecreasing (pre_y l)) ->
  axis_ok ax (map c_x (filter (clean3 cx cy) data)) -> axis_ok ay (map c_y (filter (clean3 cx cy) data)) ->
  fold_right Qplus 0%Q (map2 (fun w n => w * inject_Z n)%Q (table_woe f) (k_records f)) == 0.
Proof.
  intros ax ay cx cy pre_x pre_y g c solver P0 data f Hfit Hs HP0 Hpx Hpy Ax Ay.
  destruct (C60_table_rows ax ay cx cy pre_x pre_y g c solver P0 data f Hfit Hs HP0 Hpx Hpy Ax Ay) as (H1 & (S1 & S2 & _) & (M1 & M2 & _) & LR & LS & _).
  set (nb := length (t_bx (k_fit f))) in *.
  assert (R : forall b n s, nth_error (k_records f) b = Some n -> nth_error (k_sums f) b = Some s -> exists l, n = count3 l /\ s = total3 l).
  { intros b n s E1 E2. assert (b < nb + 2) by (rewrite <- LR; apply nth_error_Some; congruence).
    destruct (Nat.lt_ge_cases b nb) as [Hl|Hl].
    - destruct (H1 b Hl) as ((A & B & _) & _). rewrite A in E1. rewrite B in E2. injection E1 as <-. injection E2 as <-. eauto.
    - destruct (Nat.eq_dec b nb) as [->|Hne].
      + rewrite S1 in E1. rewrite S2 in E2. injection E1 as <-. injection E2 as <-. eauto.
      + assert (b = S nb) as -> by lia. rewrite M1 in E1. rewrite M2 in E2. injection E1 as <-. injection E2 as <-. eauto. }
  assert (NZ : ~ inject_Z (zsum (k_records f)) == 0).
  { assert (P : forall n, In n (k_records f) -> (0 <= n)%Z).
    { intros n Hn. apply In_nth_error in Hn as (b & Hb). assert (b < length (k_sums f)) by (rewrite LS, <- LR; apply nth_error_Some; congruence).
      destruct (nth_error (k_sums f) b) as [s|] eqn:Es; [|apply nth_error_None in Es; lia].
      destruct (R b n s Hb Es) as (l & -> & _). unfold count3. lia. }
    assert (Q0 : exists n, In n (k_records f) /\ (0 < n)%Z).
    { destruct (fit3_unpack ax ay cx cy pre_x pre_y g c solver P0 data f Hfit Hs HP0) as (srs & HV & HF & _).
      destruct (bins_length _ _ _ _ _ _ _ _ HF) as [L1 L2]. fold nb in L1.
      assert (0 < nb). { rewrite L1. destruct (proj2 (proj1 HV) 0 0 ltac:(lia) ltac:(lia)) as (b & r & Hb & _). assert (b < length srs) by (apply nth_error_Some; congruence). lia. }
      destruct (H1 0 H) as ((A & _) & NE). exists (count3 (filter (lands3 ax ay cx cy f 0) data)). split; [eapply nth_error_In; eauto|].
      unfold count3. destruct (filter (lands3 ax ay cx cy f 0) data) eqn:Ef; [congruence|cbn [length]; lia]. }
    destruct Q0 as (n & Hn & Hp). intros E. unfold Qeq in E. cbn in E.
    assert (Z0 : forall r, (forall k, In k r -> (0 <= k)%Z) -> (0 <= zsum r)%Z).
    { clear. induction r as [|a r IH]; intros H; [cbn; lia|]. cbn [zsum]. specialize (H a (or_introl eq_refl)) as Ha.
      assert (0 <= zsum r)%Z by (apply IH; intros; apply H; now right). lia. }
    assert (n <= zsum (k_records f))%Z; [|lia]. clear -P Hn Z0. revert P Hn. induction (k_records f) as [|a r IH]; intros P Hn; [destruct Hn|]. cbn [zsum].
    assert (0 <= zsum r)%Z by (apply Z0; intros; apply P; now right).
    destruct Hn as [->|Hn]; [lia|]. specialize (P a (or_introl eq_refl)) as Pa.
    assert (n <= zsum r)%Z by (apply IH; [intros; apply P; now right|exact Hn]). lia. }
  assert (G : forall recs sums t, length recs = length sums ->
     (forall b n s, nth_error recs b = Some n -> nth_error sums b = Some s -> exists l, n = count3 l /\ s = total3 l) ->
     fold_right Qplus 0%Q (map2 (fun w n => w * inject_Z n)%Q (map (fun m => m - t)%Q (mean_column recs sums)) recs) ==
     inject_Z (zsum sums) - t * inject_Z (zsum recs)).
  { clear. induction recs as [|n recs IH]; intros [|s sums] t L H; try discriminate; [cbn; ring|].
    cbn [mean_column map2 map fold_right zsum]. rewrite !inject_Z_plus. change (map2 (fun n s => if (0 <? n)%Z then qmean s n else 0%Q) recs sums) with (mean_column recs sums). rewrite IH.
    - destruct (H 0 n s eq_refl eq_refl) as (l & -> & ->). destruct l as [|a l].
      + unfold count3, total3. cbn. ring.
      + replace (0 <? count3 (a :: l))%Z with true by (symmetry; apply Z.ltb_lt; unfold count3; cbn [length]; lia).
        unfold qmean. pose proof (count3_pos (a :: l) ltac:(discriminate)). field. assumption.
    - now injection L.
    - intros b n' s' E1 E2. exact (H (S b) n' s' E1 E2). }
  unfold table_woe, table_means. rewrite G; [|lia|exact R]. unfold total_mean, qmean. field. exact NZ.
Qed.
Print Assumptions C60_deviations_cancel.

(** A fit that meets the hypotheses: 2 x 2 grid, means 10, 20, 30, 50 increasing along both axes. *)
Definition ex3_data : list sample3 :=
  [ (XNum 1, XNum 1, 5); (XNum 1, XNum 1, 15); (XNum 5, XNum 1, 20); (XNum 1, XNum 5, 30); (XNum 2, XNum 5, 30);
    (XNum 5, XNum 5, 40); (XNum 6, XNum 5, 60); (XNum 99, XNum 1, 7); (XNaN, XNum 1, -3); (XNum 99, XNaN, 11) ]%Z.
Definition ex3_pre (l : list sample3) : list Z := [3%Z].
Definition ex3_sizes : size_cfg := {| min_size := Some 1%Z; max_size := Some 3%Z; min_ev := None; max_ev := None; min_nev := None; max_nev := None |}.
Definition ex3_cfg : cfg2 := {| trend_x := Some Asc2; trend_y := Some Asc2; min_bins2 := Some 3%Z; max_bins2 := Some 4%Z; diff_x := 5; diff_y := 0; gamma2 := false |}.
Definition ex3_fit := fit3 ANum ANum (Some [XNum 99%Z]) None ex3_pre ex3_pre ex3_sizes (brute ex3_cfg) (fun k => repeat 7 k) ex3_data.
Example C60_hyps_met : exists f, ex3_fit = Ok f /\ sound_solver2 ex3_cfg (brute ex3_cfg) /\ (forall k, length (repeat 7 k) = k) /\
  (forall l, increasing (ex3_pre l)) /\ length (t_bx (k_fit f)) = 4 /\
  k_records f = [2; 1; 2; 2; 2; 2]%Z /\ k_sums f = [20; 20; 60; 100; 18; 8]%Z /\
  nth_error (t_bx (k_fit f)) 1 = Some (Some 3, None)%Z /\ nth_error (t_by (k_fit f)) 1 = Some (None, Some 3)%Z /\
  transform3_mean ANum ANum (Some [XNum 99%Z]) None f (Const true 0%Q) Empirical (XNum 4) (XNum 7) = Ok (100 # 2)%Q.
Proof.
  eexists. split; [vm_compute; reflexivity|]. split; [apply brute_sound|]. split; [intros k; apply repeat_length|].
  split; [intros l; repeat constructor|]. vm_compute. repeat split.
Qed.

(** ** C46, metric "event_rate" *)
Theorem C46_event_rate_transform : forall ax ay cx cy pre_x pre_y g c solver P0 data f ms mm x y,
  fit2 ax ay cx cy pre_x pre_y g solver P0 data = Ok f -> sound_solver2 c solver ->
  (forall k, length (P0 k) = k) -> (forall l, nondecreasing (pre_x l)) -> (forall l, nondecreasing (pre_y l)) ->
  let rate_of := fun b => (inject_Z (nth b (t_ev f) 0%Z) / inject_Z (nth b (t_ev f) 0%Z + nth b (t_nev f) 0%Z))%Q in
  let empirical := fun b => if ((0 <? nth b (t_ev f) 0%Z) && (0 <? nth b (t_nev f) 0%Z))%Z then rate_of b else 0%Q in
  let nb := length (t_bx f) in
  (known ax x -> known ay y -> no_code cx x -> no_code cy y ->
     exists b, b < nb /\ transform2_indices ax ay cx cy f Empirical Empirical x y = Ok (Z.of_nat b) /\
       (0 < nth b (t_ev f) 0%Z)%Z /\ (0 < nth b (t_nev f) 0%Z)%Z /\ transform2_rate ax ay cx cy f ms mm x y = Ok (rate_of b)) /\
  (x = XNaN \/ y = XNaN -> transform2_rate ax ay cx cy f ms mm x y =
     Ok (match mm with Empirical => empirical (S nb) | Const _ v => v end)) /\
  (x <> XNaN -> y <> XNaN -> ~ (no_code cx x /\ no_code cy y) -> transform2_rate ax ay cx cy f ms mm x y =
     Ok (match ms with Empirical => empirical nb | Const _ v => v end)).
Proof.
  intros ax ay cx cy pre_x pre_y g c solver P0 data f ms mm x y Hfit Hs HP0 Hpx Hpy rate_of empirical nb.
  destruct (fit2_unpack ax ay cx cy pre_x pre_y g c solver P0 data f Hfit Hs HP0) as (srs & HV & HF).
  destruct (bins_length _ _ _ _ _ _ _ _ HF) as [L1 L2].
  assert (LN : length (t_nev f) = nb + 2) by (unfold nb; rewrite (fo_ne _ _ _ _ _ _ _ _ HF), app_length, map_length, L1; reflexivity).
  assert (LE : length (t_ev f) = nb + 2) by (unfold nb; rewrite (fo_e _ _ _ _ _ _ _ _ HF), app_length, map_length, L1; reflexivity).
  assert (N1 : forall l b, b < length l -> nth_error l b = Some (nth b l 0%Z)) by (intros l b H; now apply nth_error_nth').
  assert (V : forall b, b < nb + 2 -> ms = Empirical \/ mm = Empirical ->
     idx (rate_column (cut ms mm nb (t_nev f)) (cut ms mm nb (t_ev f))) b = Ok (empirical b)).
  { intros b Hb He. rewrite !cut_empirical by exact He. unfold idx, rate_column. erewrite column_nth by (apply N1; lia). reflexivity. }
  split; [|split].
  - intros Kx Ky Cx Cy.
    destruct (the_bin _ _ _ _ _ _ _ f ax ay HF (proj1 HV) (Hpx _) (Hpy _) x y Kx Ky) as (b & Hb & Hin & Hu & _).
    rewrite <- L1 in Hb. fold nb in Hb. exists b. split; [exact Hb|].
    split; [apply transform2_clean; try assumption; eapply known_num; eauto|].
    assert (P : (0 < nth b (t_ev f) 0)%Z /\ (0 < nth b (t_nev f) 0)%Z).
    { destruct (nth_error srs b) as [r|] eqn:Er; [|apply nth_error_None in Er; lia].
      pose proof (proj1 (proj2 HV) r (nth_error_In _ _ Er)) as Hok. cbv beta in Hok. unfold admissible in Hok.
      pose proof (proj1 (proj1 HV) r (nth_error_In _ _ Er)) as Hr.
      rewrite (fo_e _ _ _ _ _ _ _ _ HF), (fo_ne _ _ _ _ _ _ _ _ HF), !app_nth1 by (rewrite map_length; lia).
      erewrite !nth_error_nth by (rewrite nth_error_map, Er; reflexivity).
      rewrite !andb_true_iff in Hok. destruct Hok as [[[[[[Hz _] _] _] _] _] _]. apply negb_true_iff, orb_false_iff in Hz as [Hz1 Hz2].
      apply Z.eqb_neq in Hz1, Hz2. rewrite !cell_sum_rect in * by exact Hr. lia. }
    split; [apply P|]. split; [apply P|]. unfold transform2_rate. fold nb.
    apply (transform2_value ax ay cx cy f ms mm _ 0%Q x y b); try assumption; try (eapply known_num; eauto).
    unfold rate_column. erewrite column_nth; [|rewrite cut_nth by exact Hb; apply N1; lia|rewrite cut_nth by exact Hb; apply N1; lia].
    destruct P as [P1 P2]. apply Z.ltb_lt in P1, P2. rewrite P1, P2. reflexivity.
  - intros H. unfold transform2_rate. fold nb. rewrite transform2_value_missing by exact H. destruct mm; [apply V; [lia|auto]|reflexivity].
  - intros Hx Hy H. unfold transform2_rate. fold nb. rewrite transform2_value_special; try assumption.
    + destruct ms; [apply V; [lia|auto]|reflexivity].
    + destruct (special2 cx cy (x, y, Y0)) eqn:E; [reflexivity|]. exfalso. apply H. exact (special2_false _ _ _ _ _ E).
Qed.
Print Assumptions C46_event_rate_transform.
