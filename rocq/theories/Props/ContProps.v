(** Property theorems for a continuous target (continuous_binning.py, continuous_cp.py). *)
From Coq Require Import List ZArith Bool Arith Lia Sorting QArith Qabs Reals Lra.
From Verif Require Import Model.Arr Model.Core Model.CP Model.Cont Spec.CoreSpec Spec.CPSpec Spec.CPFitSpec Spec.ContSpec
  Proofs.ArrP Proofs.CoreP Proofs.FitP Proofs.CoreFinal Proofs.CPP Proofs.CPC Proofs.CPTable Proofs.CPFinal
  Proofs.ContP Proofs.ContC Proofs.ContFinal Proofs.ContTrend Proofs.GammaP.
Import ListNotations.
Open Scope Z_scope.

(** C27: row k of the table reports exactly the records whose value lies in bin k. *)
Theorem C27_rows_exact : forall old solver sp fixed user splits0 rs f,
  nondecreasing splits0 -> c_solver_ok solver ->
  fit_cont old solver sp fixed user splits0 rs = Some (Ok f) ->
  nondecreasing (cf_splits f) /\
  forall k p, (k <= length (cf_splits f))%nat -> (forall r, p r = true <-> in_row sp (cf_splits f) k r) ->
  exists row, nth_error (cf_rows f) k = Some row /\ filter p rs <> [] /\ row_exact row (filter p rs).
Proof. exact cont_rows. Qed.
Print Assumptions C27_rows_exact.

(** The transformed value of a clean x is the weighted mean target of the training records of its bin. *)
Theorem C27_transform_is_bin_mean : forall old solver sp fixed user splits0 rs f ms mm u z k p,
  nondecreasing splits0 -> c_solver_ok solver -> (forall r, In r rs -> 0 < k_w r) ->
  fit_cont old solver sp fixed user splits0 rs = Some (Ok f) ->
  ~ In (XNum z) (flat_codes sp) -> in_bin_i (cf_splits f) k z ->
  (forall r, p r = true <-> in_row sp (cf_splits f) k r) ->
  transform_mean f sp ms mm u (XNum z) =
    Ok (Some (inject_Z (zsum (map wtarget (filter p rs))) / inject_Z (zsum (map k_w (filter p rs))))%Q).
Proof.
  intros * Hs Hok Hw Hf Hc Hb Hp. destruct (cont_rows _ _ _ _ _ _ _ _ Hs Hok Hf) as [Hn HK].
  pose proof (in_bin_i_lt _ _ _ Hb) as Hk. destruct (HK k p Hk Hp) as (row & E & Hne & [R1 R2 _ _ _ _]).
  assert (Hd : digitize (cf_splits f) z = k) by (eapply in_bin_unique; [exact Hn|apply digitize_in_bin; exact Hn|exact Hb]).
  unfold transform_mean. rewrite transform1_clean.
  - rewrite Hd. unfold mean_col.
    assert (E2 : nth_error (if is_empirical ms || is_empirical mm then cf_rows f else firstn (S (length (cf_splits f))) (cf_rows f)) k = Some row).
    { destruct (is_empirical ms || is_empirical mm); [exact E|]. rewrite nth_error_firstn by lia. exact E. }
    unfold idx. rewrite nth_error_map, E2. cbn [option_map]. f_equal. unfold row_mean. rewrite R1, R2.
    assert (0 < zsum (map k_w (filter p rs))).
    { destruct (filter p rs) as [|r l] eqn:El; [congruence|].
      assert (G : forall l', (forall r, In r l' -> 0 < k_w r) -> 0 <= zsum (map k_w l')).
      { induction l' as [|a l' IH]; intros Hl; cbn [map zsum]; [lia|]. pose proof (Hl a (or_introl eq_refl)).
        assert (0 <= zsum (map k_w l')) by (apply IH; intros; apply Hl; now right). lia. }
      assert (Hin : forall r', In r' (r :: l) -> 0 < k_w r') by (intros r' Hr'; rewrite <- El in Hr'; apply filter_In in Hr'; apply Hw, Hr').
      cbn [map zsum]. pose proof (Hin r (or_introl eq_refl)). specialize (G l (fun r' Hr' => Hin r' (or_intror Hr'))). lia. }
    destruct (Z.ltb_spec 0 (zsum (map k_w (filter p rs)))); [reflexivity|lia].
  - unfold is_clean. cbn [x_isnull negb andb]. destruct sp; [reflexivity| |]; apply negb_true_iff, not_true_is_false; rewrite isin_In; exact Hc.
Qed.
Print Assumptions C27_transform_is_bin_mean.

(** Missing and special records are counted in their own rows after the clean ones. *)
Theorem C27_missing_and_special_rows : forall old solver sp fixed user splits0 rs f,
  nondecreasing splits0 -> c_solver_ok solver ->
  fit_cont old solver sp fixed user splits0 rs = Some (Ok f) ->
  exists srows mrow, cf_rows f = c_clean_rows f ++ srows ++ [mrow] /\
    r_n mrow = zsum (map k_w (filter k_missing rs)) /\
    (forall d, sp = SpDict d -> length srows = length d /\
       forall i kv, nth_error d i = Some kv -> exists row, nth_error srows i = Some row /\
         r_n row = zsum (map k_w (filter (fun r => isin (snd kv) (k_x r)) (filter (k_special sp) rs)))) /\
    ((forall d, sp <> SpDict d) -> exists row, srows = [row] /\ r_n row = zsum (map k_w (filter (k_special sp) rs))).
Proof.
  intros * Hs Hok Hf.
  destruct (c_rows_shape _ _ _ _ _ _ _ _ Hs Hok Hf) as (srows & Hsr & Hrows).
  exists srows, (missing_row old (filter k_missing rs)). split; [exact Hrows|]. split; [reflexivity|]. split.
  - intros d ->. unfold special_rows in Hsr.
    assert (E : srows = map (fun kv => dict_row (filter (fun r => isin (snd kv) (k_x r)) (filter (k_special (SpDict d)) rs))) d).
    { destruct (filter (k_special (SpDict d)) rs) as [|]; [destruct d; [|discriminate]|]; congruence. }
    rewrite E, map_length. split; [reflexivity|]. intros i kv Hi. rewrite nth_error_map, Hi. cbn [option_map].
    eexists. split; [reflexivity|]. reflexivity.
  - intros Hd. destruct sp as [| |d]; [| |destruct (Hd d eq_refl)]; cbn [special_rows] in Hsr; injection Hsr as <-; eexists; split; reflexivity.
Qed.
Print Assumptions C27_missing_and_special_rows.

Definition kr (x y w : Z) : krec := {| k_x := XNum x; k_y := Some y; k_w := w |}.
Definition all_true (st : list cstat) : list bool := repeat true (length st).
Lemma all_true_ok : c_solver_ok all_true.
Proof.
  intros st H. unfold all_true. rewrite repeat_length. split; [reflexivity|].
  destruct (length st) as [|n]; [lia|]. clear H. induction n; [reflexivity|]. exact IHn.
Qed.
Definition ex_rs : list krec :=
  [kr 1 10 1; kr 2 0 1; kr 5 7 1; kr 6 9 1; kr (-9) 3 1; {| k_x := XNaN; k_y := Some 4; k_w := 1 |}].
Example C27_hyps_met : exists f, fit_cont fresh all_true (SpList [XNum (-9)]) None None [3; 6] ex_rs = Some (Ok f) /\
  c_solver_ok all_true /\ nondecreasing [3; 6] /\ cf_splits f = [3; 6] /\ map r_n (cf_rows f) = [2; 1; 1; 1; 1].
Proof. eexists. split; [reflexivity|]. split; [exact all_true_ok|]. split; [repeat constructor; lia|]. split; reflexivity. Qed.

(** Refuted in part: with weights the Std column is not the standard deviation of the records of the
    bin. One record of weight 2 and target 3 in its bin: the code reports 3, the records have deviation 0
    (weighted or not). *)
Theorem C27_weighted_std_refuted : exists f row, 
  fit_cont fresh all_true SpNone None None [4] [kr 1 3 2; kr 5 7 1] = Some (Ok f) /\
  nth_error (cf_rows f) 0 = Some row /\ std_value (r_std row) = Some 3%R /\
  population_std (map IZR [3; 3]) = 0%R /\ population_std (map IZR [3]) = 0%R.
Proof.
  eexists. eexists. split; [reflexivity|]. split; [reflexivity|]. split.
  - cbn [r_std row_of_acc std_value]. f_equal.
    match goal with |- sqrt ?x = _ => replace x with (3 * 3)%R by (cbn; lra) end. rewrite sqrt_square; lra.
  - split; unfold population_std, average; cbn [map rtotal length INR];
      match goal with |- sqrt ?x = _ => replace x with 0%R by field end; exact sqrt_0.
Qed.
Print Assumptions C27_weighted_std_refuted.
(** Refuted in part: configurations on which fit raises instead of producing a table: user_splits = []
    (unassigned variable), a single user split outside the data range (unpacking error in the recursive
    refinement), a dict of special codes with no special record in the data. *)
Theorem C27_fit_raises_refuted :
  (forall old solver sp fixed splits0 rs, fit_cont old solver sp fixed (Some []) splits0 rs = Some (Err OtherError)) /\
  (forall solver, fit_cont fresh solver SpNone (Some [false]) (Some [10]) [10] [kr 1 3 1; kr 5 7 1] = Some (Err ValueError)) /\
  (forall old solver fixed splits0 rs kv d, (forall r, In r rs -> k_special (SpDict (kv :: d)) r = false) ->
     fit_cont old solver (SpDict (kv :: d)) fixed None splits0 rs = Some (Err OtherError)).
Proof.
  split; [reflexivity|]. split; [reflexivity|]. intros * H.
  assert (E : filter (k_special (SpDict (kv :: d))) rs = []).
  { induction rs as [|r rs IH]; [reflexivity|]. cbn [filter]. rewrite (H r (or_introl eq_refl)). apply IH. intros; apply H; now right. }
  unfold fit_cont. rewrite E. reflexivity.
Qed.
Print Assumptions C27_fit_raises_refuted.
(** Refuted in part (see C26): after a refit without missing records the missing row keeps the minimum, maximum
    and standard deviation of the previous data, with a count of 0. *)
Theorem C27_stale_missing_stats_refuted : exists f,
  fit_cont {| old_std := NpStd [4; 6]; old_min := Fin 4; old_max := Fin 6 |} all_true SpNone None None [4] [kr 1 3 1; kr 5 7 1] = Some (Ok f) /\
  exists row, nth_error (cf_rows f) 3 = Some row /\ r_n row = 0 /\ r_max row = Fin 6.
Proof. eexists. split; [reflexivity|]. eexists. split; [reflexivity|]. split; reflexivity. Qed.
Print Assumptions C27_stale_missing_stats_refuted.

(** C28: the requested trend holds for the means of the rows of the table, up to two units of the
    scaled integers (M = 10^6 in the code; four units for concave / convex). *)
Theorem C28_trend_honoured : forall old solver sp fixed user splits0 rs f M yu g X,
  (forall r, In r rs -> 0 <= k_w r) -> 0 < M -> 0 < yu ->
  fit_cont old solver sp fixed user splits0 rs = Some (Ok f) -> c_solved f solver M yu g X ->
  match cg_trend g with
  | TNone => True
  | TAscending => all_pairs (mean_le_res M yu) (c_clean_rows f)
  | TDescending => all_pairs (mean_ge_res M yu) (c_clean_rows f)
  | TPeak => up_down (mean_le_res M yu) (c_clean_rows f)
  | TValley => up_down (mean_ge_res M yu) (c_clean_rows f)
  | TPeakHeuristic tc => (tc <= length (cp_stats (cf_prebins f)))%nat -> up_down (mean_le_res M yu) (c_clean_rows f)
  | TValleyHeuristic tc => (tc <= length (cp_stats (cf_prebins f)))%nat -> up_down (mean_ge_res M yu) (c_clean_rows f)
  | TConcave => all_triples (fun a b c => (tmean yu a + tmean yu c < 2 * tmean yu b + 4 / inject_Z M)%Q) (c_clean_rows f)
  | TConvex => all_triples (fun a b c => (2 * tmean yu b < tmean yu a + tmean yu c + 4 / inject_Z M)%Q) (c_clean_rows f)
  end.
Proof. intros * Hw HM Hy Hf Hs. exact (c_trend_table _ _ _ _ _ _ _ _ _ _ _ _ Hw Hf Hs HM Hy). Qed.
Print Assumptions C28_trend_honoured.

(** min_mean_diff (exactly), the t-test policy, number of bins and bin sizes. *)
Theorem C28_min_mean_diff : forall old solver sp fixed user splits0 rs f M yu g X d,
  (forall r, In r rs -> 0 <= k_w r) -> 0 < yu ->
  fit_cont old solver sp fixed user splits0 rs = Some (Ok f) -> c_solved f solver M yu g X ->
  cg_dviol g = c_dviol (Some (d * inject_Z yu)%Q) (map c_n (cp_stats (cf_prebins f))) (map c_sum (cp_stats (cf_prebins f))) ->
  neighbours (fun r1 r2 => (d <= Qabs (tmean yu r1 - tmean yu r2))%Q) (c_clean_rows f).
Proof. intros * Hw Hy Hf Hs Hd. exact (c_min_diff_table _ _ _ _ _ _ _ _ _ _ _ _ Hw Hf Hs Hy d Hd). Qed.
Print Assumptions C28_min_mean_diff.
Theorem C28_pvalue_policy : forall old solver sp fixed user splits0 rs f M yu g X pol test,
  (forall r, In r rs -> 0 <= k_w r) ->
  fit_cont old solver sp fixed user splits0 rs = Some (Ok f) -> c_solved f solver M yu g X ->
  cg_pviol g = c_pviol pol test (map c_n (cp_stats (cf_prebins f))) (map c_sum (cp_stats (cf_prebins f))) (map c_ss (cp_stats (cf_prebins f))) ->
  match pol with
  | PVNone => True
  | PVAll => all_pairs (fun r1 r2 => test (moments r1) (moments r2) = false) (c_clean_rows f)
  | PVConsecutive => neighbours (fun r1 r2 => test (moments r1) (moments r2) = false) (c_clean_rows f)
  end.
Proof. intros * Hw Hf Hs Hd. exact (c_pvalue_table _ _ _ _ _ _ _ _ _ _ _ _ Hw Hf Hs pol test Hd). Qed.
Print Assumptions C28_pvalue_policy.
Theorem C28_bins_and_sizes : forall old solver sp fixed user splits0 rs f M yu g X,
  (forall r, In r rs -> 0 <= k_w r) ->
  fit_cont old solver sp fixed user splits0 rs = Some (Ok f) -> c_solved f solver M yu g X ->
  length (c_clean_rows f) = (length (cf_splits f) + 1)%nat /\
  within (cg_min_bins g) (cg_max_bins g) (Z.of_nat (length (cf_splits f) + 1)) /\
  Forall (fun r => within (cg_min_size g) (cg_max_size g) (r_n r)) (c_clean_rows f).
Proof. intros * Hw Hf Hs. exact (c_sizes_table _ _ _ _ _ _ _ _ _ _ _ _ Hw Hf Hs). Qed.
Print Assumptions C28_bins_and_sizes.

(** Every partition that meets the request (exact order of means) is a feasible assignment ... *)
Theorem C28_valid_binning_feasible : forall N S SS gs M yu g pol test md,
  length S = length N -> length SS = length N -> 0 < M -> 0 < yu -> (forall v, In v N -> 0 < v) ->
  (0 < length N)%nat -> partition (length N) gs ->
  cg_pviol g = c_pviol pol test N S SS -> cg_dviol g = c_dviol md N S ->
  c_request_ok N S SS gs yu g pol test md ->
  exists X, describes (length N) gs X /\ c_feasible (length N) (mean_mat M yu N S) (at0 N) g X.
Proof. exact c_complete. Qed.
Print Assumptions C28_valid_binning_feasible.
(** ... so an optimal answer has the largest total |bin mean - overall mean| among them. *)
Theorem C28_optimal_among_requests : forall old solver sp fixed user splits0 rs f M yu g X pol test md,
  (forall r, In r rs -> 0 <= k_w r) -> 0 < M -> 0 < yu ->
  fit_cont old solver sp fixed user splits0 rs = Some (Ok f) -> c_solved f solver M yu g X ->
  let N := map c_n (cp_stats (cf_prebins f)) in let S := map c_sum (cp_stats (cf_prebins f)) in
  let SS := map c_ss (cp_stats (cf_prebins f)) in
  cg_pviol g = c_pviol pol test N S SS -> cg_dviol g = c_dviol md N S ->
  (forall X', c_feasible (length N) (mean_mat M yu N S) (at0 N) g X' ->
     objective (length N) (norm_mat M yu N S) X' <= objective (length N) (norm_mat M yu N S) X) ->
  forall gs', partition (length N) gs' -> c_request_ok N S SS gs' yu g pol test md ->
  zsum (map (norm_phi M yu N S) (rows_of N S gs')) <= zsum (map (norm_phi M yu N S) (map tab (c_clean_rows f))).
Proof.
  intros * Hw HM Hy Hf Hs N S SS Ep Ed Hopt gs' Hp' Hok.
  destruct (c_groups _ _ _ _ _ _ _ _ _ _ _ _ Hw Hf Hs) as [gs F]. pose proof Hs as (Hn & _ & _).
  assert (LN : length N = length (cp_stats (cf_prebins f))) by (unfold N; now rewrite map_length).
  assert (LS : length S = length N) by (unfold S, N; now rewrite !map_length).
  assert (LSS : length SS = length N) by (unfold SS, N; now rewrite !map_length).
  assert (H0 : (0 < length N)%nat) by lia.
  rewrite (cf_tab _ _ _ F). fold N S.
  pose proof (cf_part _ _ _ F) as Hp. pose proof (cf_desc _ _ _ F) as Hr. rewrite <- LN in Hp, Hr.
  destruct (c_complete N S SS gs' M yu g pol test md LS LSS HM Hy (cf_pos _ _ _ F) H0 Hp' Ep Ed Hok) as (X' & Hr' & HF').
  rewrite <- (c_objective_groups M yu N S gs X LS H0 Hp Hr), <- (c_objective_groups M yu N S gs' X' LS H0 Hp' Hr').
  now apply Hopt.
Qed.
Print Assumptions C28_optimal_among_requests.
(** a fit with two prebins, an ascending request and a feasible answer *)
Definition no_req (t : trend) : cc_cfg := {| cg_trend := t; cg_min_bins := None; cg_max_bins := None; cg_min_size := None;
  cg_max_size := None; cg_fixed := None; cg_pviol := []; cg_dviol := [] |}.
Example C28_hyps_met : exists f X, fit_cont fresh all_true SpNone None None [4] [kr 1 3 1; kr 5 7 1; kr 6 8 1] = Some (Ok f) /\
  c_solved f all_true 1000000 1 (no_req TAscending) X /\ map (tmean 1) (c_clean_rows f) = [3 # 1; 15 # 2]%Q.
Proof.
  eexists. exists (mat_of [(0, 0); (1, 1)]%nat). split; [reflexivity|]. split; [|reflexivity].
  split; [cbn; lia|]. split; [reflexivity|]. cbn [cf_prebins cp_stats map c_n c_sum].
  pose proof (mat_of_represents 2 [(0, 0); (1, 1)]%nat) as Hr.
  assert (Hp : partition 2 [(0, 0); (1, 1)]%nat) by repeat constructor.
  destruct (represents_structural _ _ _ Hp Hr) as (S1 & S2 & S3).
  refine (conj S1 (conj S2 (conj S3 (conj _ (conj _ (conj _ (conj _ (conj _ _)))))))); [split; intros ? [=]|exact I| |intros ? []|intros ? []|exact I].
  apply (c_ascending_iff 2 _ _ _ ltac:(lia) Hp Hr). repeat constructor. unfold g_le, at_group. vm_compute. discriminate.
Qed.
Example C28_request_met : c_request_ok [1; 2] [3; 15] [9; 113] [(0, 0); (1, 1)]%nat 1 (no_req TAscending) PVNone (fun _ _ => false) None.
Proof.
  constructor; cbn [no_req cg_trend cg_min_bins cg_max_bins cg_min_size cg_max_size cg_fixed c_trend_met].
  - repeat constructor. unfold mean_le, gmean. vm_compute. discriminate.
  - split; intros ? [=].
  - repeat constructor; intros ? [=].
  - exact I.
  - intros ? [=].
  - intros ? ? [=].
Qed.

(** Refuted in part: the big-M of the peak / valley constraints is max |U|, too small when means of both signs occur: three
    prebins with means -10, 10, -10 form a valid peak (as three bins) that no assignment of the model represents. *)
Theorem C28_peak_rejects_valid_refuted :
  up_down (mean_le 1) (rows_of [1; 1; 1] [-10; 10; -10] [(0, 0); (1, 1); (2, 2)]%nat) /\
  forall X, describes 3 [(0, 0); (1, 1); (2, 2)]%nat X ->
    ~ c_feasible 3 (mean_mat 1000000 1 [1; 1; 1] [-10; 10; -10]) (at0 [1; 1; 1]) (no_req TPeak) X.
Proof.
  split.
  - exists [(1, -10); (1, 10)], [(1, -10)]. split; [reflexivity|].
    split; repeat constructor; unfold mean_le, gmean; cbn; discriminate.
  - intros X Hr (_ & _ & _ & _ & _ & HT & _). cbn [cg_trend no_req c_trend] in HT.
    assert (Hp : partition 3 [(0, 0); (1, 1); (2, 2)]%nat) by repeat constructor.
    destruct HT as (y & t & Hc & H). destruct (change_point_cut 3 ltac:(lia) y t Hc) as (c & Hcn & Y1 & Y0).
    set (U := mean_mat 1000000 1 [1; 1; 1] [-10; 10; -10]) in *.
    set (gs := [(0, 0); (1, 1); (2, 2)]%nat) in *.
    assert (D0 : X 0%nat 0%nat = 1) by (apply (diag1 3 gs X Hp Hr 0 0); cbn; auto).
    assert (D1 : X 1%nat 1%nat = 1) by (apply (diag1 3 gs X Hp Hr 1 1); cbn; auto).
    assert (D2 : X 2%nat 2%nat = 1) by (apply (diag1 3 gs X Hp Hr 2 2); cbn; auto).
    pose proof (row_rate_end 3 gs X Hp Hr U 0 0 ltac:(cbn; auto)) as E0. pose proof (row_rate_end 3 gs X Hp Hr U 1 1 ltac:(cbn; auto)) as E1.
    pose proof (row_rate_end 3 gs X Hp Hr U 2 2 ltac:(cbn; auto)) as E2. unfold row_rate in E0, E1, E2.
    assert (V0 : U 0%nat 0%nat = -10000000) by (vm_compute; reflexivity). assert (V1 : U 1%nat 1%nat = 10000000) by (vm_compute; reflexivity).
    assert (V2 : U 2%nat 2%nat = -10000000) by (vm_compute; reflexivity). assert (VM : max_abs 3 U = 10000000) by (vm_compute; reflexivity).
    destruct (H 1%nat 0%nat ltac:(lia) ltac:(lia) D0 D1) as [A1 A2]. destruct (H 2%nat 1%nat ltac:(lia) ltac:(lia) D1 D2) as [B1 B2].
    rewrite VM in A1, A2, B1, B2. clear H.
    destruct (Nat.le_gt_cases c 1) as [Hle|Hgt].
    + pose proof (Y0 1%nat ltac:(lia)). destruct (Nat.eq_dec c 0); [pose proof (Y0 0%nat ltac:(lia))|pose proof (Y1 0%nat ltac:(lia))]; nia.
    + pose proof (Y1 1%nat ltac:(lia)). destruct (Nat.eq_dec c 2); [pose proof (Y0 2%nat ltac:(lia))|pose proof (Y1 2%nat ltac:(lia))]; nia.
Qed.
Print Assumptions C28_peak_rejects_valid_refuted.
(** Refuted in part: targets below the resolution 10^-6 of the scaled integers are not ordered at all: targets 5e-9 and 3e-9
    satisfy an "ascending" request. *)
Theorem C28_small_targets_unordered_refuted : exists f X,
  fit_cont fresh all_true SpNone None None [4] [kr 1 5 1; kr 5 3 1] = Some (Ok f) /\
  c_solved f all_true 1000000 1000000000 (no_req TAscending) X /\
  exists r1 r2, c_clean_rows f = [r1; r2] /\ (tmean 1000000000 r2 < tmean 1000000000 r1)%Q.
Proof.
  eexists. exists (mat_of [(0, 0); (1, 1)]%nat). split; [reflexivity|]. split.
  - split; [cbn; lia|]. split; [reflexivity|]. cbn [cf_prebins cp_stats map c_n c_sum].
    pose proof (mat_of_represents 2 [(0, 0); (1, 1)]%nat) as Hr.
    assert (Hp : partition 2 [(0, 0); (1, 1)]%nat) by repeat constructor.
    destruct (represents_structural _ _ _ Hp Hr) as (S1 & S2 & S3).
    refine (conj S1 (conj S2 (conj S3 (conj _ (conj _ (conj _ (conj _ (conj _ _)))))))); [split; intros ? [=]|exact I| |intros ? []|intros ? []|exact I].
    apply (c_ascending_iff 2 _ _ _ ltac:(lia) Hp Hr). repeat constructor. unfold g_le, at_group. vm_compute. discriminate.
  - eexists. eexists. split; [reflexivity|]. vm_compute. reflexivity.
Qed.
Print Assumptions C28_small_targets_unordered_refuted.

(** C51: gamma. Binary target: at an optimum of the model with a positive penalty, pmin and pmax are the smallest and the
    largest bin size, so the answer maximises (divergence - penalty * size spread) over all feasible binnings. *)
Theorem C51_gamma_penalises_size_spread : forall ne ev M g reg V X pmin pmax gs,
  let N := map2 Z.add ne ev in let n := length N in
  let P := feasible n (rate_mat M ne ev) M (at0 ne) (at0 ev) g in
  (0 < n)%nat -> (forall v, In v N -> 0 <= v) -> 0 < reg ->
  P X -> dominating n (at0 N) pmin pmax X ->
  (forall X' a b, P X' -> dominating n (at0 N) a b X' ->
     objective n V X' - reg * (b - a) <= objective n V X - reg * (pmax - pmin)) ->
  partition n gs -> describes n gs X ->
  is_min pmin (map (gsum N) gs) /\ is_max pmax (map (gsum N) gs) /\
  forall X' gs' a b, P X' -> partition n gs' -> describes n gs' X' ->
    is_min a (map (gsum N) gs') -> is_max b (map (gsum N) gs') ->
    objective n V X' - reg * (b - a) <= objective n V X - reg * (pmax - pmin).
Proof.
  intros * Hn Hpos Hreg HX HD Hopt Hp Hr.
  exact (gamma_optimum N Hn Hpos P (objective n V) reg Hreg X pmin pmax gs HX HD Hopt Hp Hr).
Qed.
Print Assumptions C51_gamma_penalises_size_spread.
(** "Larger values specify stronger regularization": the optimum for a larger penalty never has a larger difference between its
    largest and smallest bin, nor a larger divergence. *)
Theorem C51_larger_gamma : forall ne ev M g V reg1 reg2 X1 p1 q1 gs1 X2 p2 q2 gs2,
  let N := map2 Z.add ne ev in let n := length N in
  let P := feasible n (rate_mat M ne ev) M (at0 ne) (at0 ev) g in
  let best reg X pmin pmax := P X /\ dominating n (at0 N) pmin pmax X /\
    forall X' a b, P X' -> dominating n (at0 N) a b X' -> objective n V X' - reg * (b - a) <= objective n V X - reg * (pmax - pmin) in
  (0 < n)%nat -> (forall v, In v N -> 0 <= v) -> 0 < reg1 < reg2 ->
  best reg1 X1 p1 q1 -> best reg2 X2 p2 q2 ->
  partition n gs1 -> describes n gs1 X1 -> partition n gs2 -> describes n gs2 X2 ->
  forall a1 b1 a2 b2, is_min a1 (map (gsum N) gs1) -> is_max b1 (map (gsum N) gs1) -> is_min a2 (map (gsum N) gs2) -> is_max b2 (map (gsum N) gs2) ->
  b2 - a2 <= b1 - a1 /\ objective n V X2 <= objective n V X1.
Proof.
  intros * Hn Hpos Hr (F1 & D1 & O1) (F2 & D2 & O2) Hp1 Hd1 Hp2 Hd2 * A1 B1 A2 B2.
  destruct (gamma_optimum N Hn Hpos P (objective n V) reg1 ltac:(lia) X1 p1 q1 gs1 F1 D1 O1 Hp1 Hd1) as (E1 & E2 & _).
  destruct (gamma_optimum N Hn Hpos P (objective n V) reg2 ltac:(lia) X2 p2 q2 gs2 F2 D2 O2 Hp2 Hd2) as (E3 & E4 & _).
  assert (U : forall l x y, is_min x l -> is_min y l -> x = y) by (intros l x y [I1 I2] [J1 J2]; specialize (I2 _ J1); specialize (J2 _ I1); lia).
  assert (W : forall l x y, is_max x l -> is_max y l -> x = y) by (intros l x y [I1 I2] [J1 J2]; specialize (I2 _ J1); specialize (J2 _ I1); lia).
  rewrite (U _ _ _ A1 E1), (U _ _ _ A2 E3), (W _ _ _ B1 E2), (W _ _ _ B2 E4).
  pose proof (O1 X2 p2 q2 F2 D2) as H1. pose proof (O2 X1 p1 q1 F1 D1) as H2.
  set (s1 := q1 - p1) in *. set (s2 := q2 - p2) in *. set (v1 := objective n V X1) in *. set (v2 := objective n V X2) in *. clearbody s1 s2 v1 v2.
  assert (s2 <= s1) by nia. split; [assumption|nia].
Qed.
Print Assumptions C51_larger_gamma.
Example C51_hyps_met : dominating 2 (at0 [3; 5]) 3 5 (mat_of [(0, 0); (1, 1)]%nat) /\
  is_min 3 (map (gsum [3; 5]) [(0, 0); (1, 1)]%nat) /\ is_max 5 (map (gsum [3; 5]) [(0, 0); (1, 1)]%nat).
Proof.
  assert (A : is_min 3 (map (gsum [3; 5]) [(0, 0); (1, 1)]%nat)) by (split; [cbn; auto|]; intros a [<-|[<-|[]]]; vm_compute; discriminate).
  assert (B : is_max 5 (map (gsum [3; 5]) [(0, 0); (1, 1)]%nat)) by (split; [cbn; auto|]; intros a [<-|[<-|[]]]; vm_compute; discriminate).
  split; [|split; assumption]. apply (tight_dominating [3; 5] ltac:(cbn; lia) ltac:(intros v [<-|[<-|[]]]; lia) [(0, 0); (1, 1)]%nat); auto.
  - repeat constructor.
  - apply mat_of_represents.
Qed.
(** Refuted for a continuous target: pmin and pmax are unconstrained, so gamma has no effect: the answer maximises the objective
    without penalty, whatever gamma. *)
Theorem C51_continuous_gamma_ignored_refuted : forall n U V cnt g reg total X pmin pmax, 0 <= reg -> 0 <= total ->
  c_feasible n U cnt g X -> 0 <= pmin <= total -> 0 <= pmax <= total ->
  (forall X' a b, c_feasible n U cnt g X' -> 0 <= a <= total -> 0 <= b <= total ->
     c_gamma_objective n V X' reg a b <= c_gamma_objective n V X reg pmin pmax) ->
  forall X', c_feasible n U cnt g X' -> objective n V X' <= objective n V X.
Proof. intros *. apply c_gamma_ignored. Qed.
Print Assumptions C51_continuous_gamma_ignored_refuted.
