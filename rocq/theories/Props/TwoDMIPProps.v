(** C68: two-dimensional binning (strategy "grid", binary target): the regularisation gamma, and solver="mip". *)
From Coq Require Import List ZArith QArith Lia Bool Arith Permutation Sorting Reals Lra.
From Verif Require Import Model.Arr Model.Core Model.Metrics Model.MIP Model.Scaled Model.TwoD Model.TwoDMIP Spec.CoreSpec Spec.TwoDSpec Spec.ScaledSpec Spec.TwoDMIPSpec
  Proofs.ArrP Proofs.CoreP Proofs.MetricsP Proofs.TwoDP Proofs.TwoDQ Proofs.TwoDR Proofs.TwoDS Proofs.TwoDT Proofs.TwoDU Proofs.TwoDV Proofs.TwoDG Proofs.ScaledP
  Proofs.TwoDMIPP Props.TwoDProps.
Import ListNotations.
Open Scope Z_scope.

Section Grid.
Variables (m n : nat) (c : cfg2) (fe fne : list Z) (ok : list nat -> bool).
Hypothesis Hn : (0 < n)%nat.
Hypothesis He : forall v, In v fe -> 0 <= v.
Hypothesis Hne : forall v, In v fne -> 0 <= v.
Let rs := rects_of m n ok.
Let rd := grid_rdata m n ok.
Let nrec := records_of fe fne (rd_rows rd).
Let feas := feasible2 m n c rd (rates_of fe fne (rd_rows rd)) nrec.
Let valid := valid_tiling m n c (fun r => ok (cells n r) = true) (fun r => TwoD.rate (cell_sum fe (cells n r)) (cell_sum fne (cells n r))).
Let size := rect_records n fe fne.
Lemma cs_nonneg l cs : (forall v, In v l -> 0 <= v) -> 0 <= cell_sum l cs.
Proof.
  intros H. unfold cell_sum. refine (proj1 (zs_nonneg _ _)). intros v Hv. apply in_map_iff in Hv as (i & <- & _).
  destruct (nth_in_or_default i l 0) as [Hi|E]; [now apply H|rewrite E; lia].
Qed.
Lemma nrec_map : nrec = map size rs.
Proof. unfold nrec, records_of, rd, grid_rdata, size, rect_records. cbn [rd_rows]. now rewrite map_map. Qed.
Lemma nrec_pos v : In v nrec -> 0 <= v.
Proof. rewrite nrec_map. intros H. apply in_map_iff in H as (r & <- & _). unfold size, rect_records. pose proof (cs_nonneg fe (cells n r) He). pose proof (cs_nonneg fne (cells n r) Hne). lia. Qed.
Lemma nrec_sel sol : select sol nrec = map size (select sol rs). Proof. rewrite nrec_map. apply select_map. Qed.
Lemma base_iff sol : feas sol <-> feasible2 m n (no_gamma c) rd (rates_of fe fne (rd_rows rd)) nrec sol /\ (gamma2 c = true -> exists a b, size_bounds nrec sol a b).
Proof.
  unfold feas, feasible2, dominating2, no_gamma, min_max_bins2. cbn [trend_x trend_y min_bins2 max_bins2 diff_x diff_y gamma2]. unfold size_bounds. cbv zeta.
  destruct (gamma2 c); split.
  - intros (A & B & C & D & E & F). auto 10.
  - intros ((A & B & C & D & E & _) & F). auto 10.
  - intros (A & B & C & D & E & F). split; [auto 10|discriminate].
  - tauto.
Qed.
Lemma sol_len sol : feas sol -> length sol = length nrec.
Proof. intros (HL & _). rewrite HL. unfold nrec, records_of. now rewrite map_length. Qed.
Lemma valid_nonempty (Hm : (0 < m)%nat) ts : valid ts -> ts <> [].
Proof.
  intros (HT & _) ->. destruct (proj2 HT 0%nat 0%nat ltac:(lia) ltac:(lia)) as (b & r & Hb & _). destruct b; discriminate.
Qed.
Lemma complete_g ts s : valid ts -> is_spread (map size ts) s ->
  exists sol a b, feas sol /\ size_bounds nrec sol a b /\ s = b - a /\ Permutation (select sol rs) ts.
Proof.
  intros HV HS. assert (HV' : valid_tiling m n (no_gamma c) (fun r => ok (cells n r) = true) (q_of fe fne n) ts) by exact HV.
  destruct (feasible2_complete m n (no_gamma c) fe fne ok ts Hn eq_refl HV') as (sol & HF & HP). fold rs rd in HF, HP.
  assert (L : length sol = length nrec) by (destruct HF as (L & _); rewrite L; unfold nrec, records_of; now rewrite map_length).
  assert (HS' : is_spread (select sol nrec) s) by (rewrite nrec_sel; eapply spread_perm; [apply Permutation_sym, Permutation_map; exact HP|exact HS]).
  destruct (spread_tight nrec sol s L nrec_pos HS') as (a & b & HB & E). exists sol, a, b. split; [|auto]. apply base_iff. split; [exact HF|eauto].
Qed.
Lemma sound_g sol : feas sol -> valid (select sol rs).
Proof.
  intros HF. pose proof (sol_len sol HF) as L. apply base_iff in HF as [HF _].
  refine (proj1 (feasible2_iff m n (no_gamma c) fe fne ok sol Hn eq_refl _) HF). rewrite L. rewrite nrec_map. now rewrite map_length.
Qed.
Lemma best_g reg w sol a b ts s s' : 0 <= reg -> feas sol -> size_bounds nrec sol a b ->
  (forall sol' a' b', feas sol' -> size_bounds nrec sol' a' b' -> objective_g reg (map w rs) sol' a' b' <= objective_g reg (map w rs) sol a b) ->
  valid ts -> is_spread (map size ts) s' -> is_spread (map size (select sol rs)) s ->
  zsum (map w ts) - reg * s' <= zsum (map w (select sol rs)) - reg * s.
Proof.
  intros Hr HF HB Hopt HV HS' HS. destruct (complete_g ts s' HV HS') as (sol' & a' & b' & HF' & HB' & -> & HP).
  specialize (Hopt sol' a' b' HF' HB'). unfold objective_g in Hopt. rewrite !objective2_sum in Hopt.
  rewrite (zsum_perm _ _ (Permutation_map w HP)) in Hopt. rewrite <- nrec_sel in HS.
  pose proof (spread_le nrec sol s a b (sol_len sol HF) nrec_pos HS HB). assert (reg * s <= reg * (b - a)) by (apply Z.mul_le_mono_nonneg_l; lia). lia.
Qed.
End Grid.

(** ** gamma with the default solver. [reg] is the integer penalty; all record counts are non-negative. *)

(** Every valid tiling can be chosen by the solver with pmax - pmin = the difference between its largest and smallest bin. *)
Theorem C68_gamma_allows_every_tiling : forall m n c fe fne ok ts s, (0 < n)%nat -> (forall v, In v fe -> 0 <= v) -> (forall v, In v fne -> 0 <= v) ->
  let rd := grid_rdata m n ok in let nrec := records_of fe fne (rd_rows rd) in
  valid_tiling m n c (fun r => ok (cells n r) = true) (fun r => TwoD.rate (cell_sum fe (cells n r)) (cell_sum fne (cells n r))) ts ->
  is_spread (map (rect_records n fe fne) ts) s ->
  exists sol a b, feasible2 m n c rd (rates_of fe fne (rd_rows rd)) nrec sol /\ size_bounds nrec sol a b /\ s = b - a /\
    Permutation (select sol (rects_of m n ok)) ts.
Proof. intros. now apply complete_g. Qed.
Print Assumptions C68_gamma_allows_every_tiling.

(** An optimal solution maximises (sum of weights) - reg * (largest bin - smallest bin) over all valid tilings. *)
Theorem C68_gamma_optimal : forall m n c fe fne ok reg w sol a b ts s s', (0 < n)%nat -> (forall v, In v fe -> 0 <= v) -> (forall v, In v fne -> 0 <= v) -> 0 <= reg ->
  let rs := rects_of m n ok in let rd := grid_rdata m n ok in let nrec := records_of fe fne (rd_rows rd) in
  let feasible := feasible2 m n c rd (rates_of fe fne (rd_rows rd)) nrec in
  let sizes := map (rect_records n fe fne) in
  feasible sol -> size_bounds nrec sol a b ->
  (forall sol' a' b', feasible sol' -> size_bounds nrec sol' a' b' -> objective_g reg (map w rs) sol' a' b' <= objective_g reg (map w rs) sol a b) ->
  valid_tiling m n c (fun r => ok (cells n r) = true) (fun r => TwoD.rate (cell_sum fe (cells n r)) (cell_sum fne (cells n r))) ts ->
  is_spread (sizes ts) s' -> is_spread (sizes (select sol rs)) s ->
  zsum (map w ts) - reg * s' <= zsum (map w (select sol rs)) - reg * s.
Proof. intros * Hn He Hne Hr rs rd nrec feas sizes HF HB Hopt HV HS1 HS. exact (best_g m n c fe fne ok Hn He Hne reg w sol a b ts s s' Hr HF HB Hopt HV HS1 HS). Qed.
Print Assumptions C68_gamma_optimal.

(** In terms of the divergence and gamma: with T the records of all candidate rectangles together, no valid tiling exceeds
    divergence - gamma/T * (largest - smallest bin) of the answer by more than (numbers of bins + its own spread) / M. *)
Theorem C68_gamma_optimal_divergence : forall m n c fe fne ok d M gamma sol a b ts s s', (0 < n)%nat -> (forall v, In v fe -> 0 <= v) -> (forall v, In v fne -> 0 <= v) ->
  0 < M -> (0 <= gamma)%R ->
  let rs := rects_of m n ok in let rd := grid_rdata m n ok in let nrec := records_of fe fne (rd_rows rd) in
  let feasible := feasible2 m n c rd (rates_of fe fne (rd_rows rd)) nrec in
  let counts := fun r => (cell_sum fne (cells n r), cell_sum fe (cells n r)) in
  let obj := objective_g (regularization M gamma nrec) (map (fun r => scaled_div M d (zsum fne, zsum fe) (counts r)) rs) in
  let divergence := fun l => rsum (map (fun r => bin_divergence d (zsum fne, zsum fe) (counts r)) l) in
  let sizes := map (rect_records n fe fne) in
  let T := IZR (zsum (sizes rs)) in
  feasible sol -> size_bounds nrec sol a b ->
  (forall sol' a' b', feasible sol' -> size_bounds nrec sol' a' b' -> obj sol' a' b' <= obj sol a b) ->
  valid_tiling m n c (fun r => ok (cells n r) = true) (fun r => TwoD.rate (cell_sum fe (cells n r)) (cell_sum fne (cells n r))) ts ->
  is_spread (sizes ts) s' -> is_spread (sizes (select sol rs)) s ->
  (divergence ts - gamma / T * IZR s' <= divergence (select sol rs) - gamma / T * IZR s + (INR (length ts + length (select sol rs)) + IZR s') / IZR M)%R.
Proof.
  intros * Hn He Hne HM Hg rs rd nrec feas counts obj dv sizes T HF HB Hopt HV HS' HS.
  assert (ET : T = IZR (zsum nrec)) by (unfold T, sizes, nrec, rs, rd; now rewrite nrec_map).
  assert (T0 : (0 <= T)%R). { rewrite ET. apply IZR_le. refine (proj1 (zs_nonneg _ _)). intros v Hv. apply (nrec_pos m n c fe fne ok); assumption. }
  assert (G0 : (0 <= gamma / T)%R).
  { unfold Rdiv. apply Rmult_le_pos; [exact Hg|]. destruct (Req_dec T 0) as [E|E]; [rewrite E, Rinv_0; lra|apply Rlt_le, Rinv_0_lt_compat; lra]. }
  set (reg := regularization M gamma nrec) in *. assert (HM' := IZR_lt _ _ HM).
  assert (HR : (gamma / T * IZR M <= IZR reg < gamma / T * IZR M + 1)%R).
  { unfold reg, regularization. rewrite <- ET. replace (IZR M * gamma / T)%R with (gamma / T * IZR M)%R by (unfold Rdiv; ring). apply ceil_close. }
  assert (R0 : 0 <= reg). { apply le_IZR. apply Rle_trans with (gamma / T * IZR M)%R; [apply Rmult_le_pos; lra|lra]. }
  pose proof (best_g m n c fe fne ok Hn He Hne reg _ sol a b ts s s' R0 HF HB Hopt HV HS' HS) as H. fold rs in H.
  set (w := fun r => scaled_div M d (zsum fne, zsum fe) (counts r)) in *.
  set (f := fun r => bin_divergence d (zsum fne, zsum fe) (counts r)) in *.
  assert (S0 : forall l x, is_spread l x -> 0 <= x) by (intros l x (lo & hi & A1 & A2 & A3 & ->); pose proof (A3 _ A2); lia).
  pose proof (S0 _ _ HS) as Ss. pose proof (S0 _ _ HS') as Ss'. apply IZR_le in Ss, Ss', H. rewrite !minus_IZR, !mult_IZR in H.
  pose proof (trunc_sum f w M (fun r => scaled_spec M d _ _) ts) as B1. pose proof (trunc_sum f w M (fun r => scaled_spec M d _ _) (select sol rs)) as B2.
  rewrite plus_INR. unfold dv. fold f.
  assert (B1' : (rsum (map f ts) * IZR M <= IZR (zsum (map w ts)) + INR (length ts))%R) by (revert B1; unfold Rabs; destruct (Rcase_abs _); lra).
  assert (B2' : (IZR (zsum (map w (select sol rs))) <= rsum (map f (select sol rs)) * IZR M + INR (length (select sol rs)))%R) by (revert B2; unfold Rabs; destruct (Rcase_abs _); lra).
  assert (P1 : (gamma / T * IZR M * IZR s <= IZR reg * IZR s)%R) by (apply Rmult_le_compat_r; lra).
  assert (P2 : (IZR reg * IZR s' <= (gamma / T * IZR M + 1) * IZR s')%R) by (apply Rmult_le_compat_r; lra).
  apply (Rmult_le_reg_r (IZR M)); [exact HM'|]. rewrite (Rmult_plus_distr_r (_ - _)%R).
  replace ((INR (length ts) + INR (length (select sol rs)) + IZR s') / IZR M * IZR M)%R with (INR (length ts) + INR (length (select sol rs)) + IZR s')%R by (field; lra).
  replace ((rsum (map f ts) - gamma / T * IZR s') * IZR M)%R with (rsum (map f ts) * IZR M - gamma / T * IZR M * IZR s')%R by ring.
  replace ((rsum (map f (select sol rs)) - gamma / T * IZR s) * IZR M)%R with (rsum (map f (select sol rs)) * IZR M - gamma / T * IZR M * IZR s)%R by ring.
  lra.
Qed.
Print Assumptions C68_gamma_optimal_divergence.

(** "Larger values specify stronger regularization": a larger penalty never gives a larger spread of the bin sizes (nor a larger
    total weight). *)
Theorem C68_larger_gamma : forall m n c fe fne ok w reg1 reg2 sol1 a1 b1 s1 sol2 a2 b2 s2,
  (0 < n)%nat -> (forall v, In v fe -> 0 <= v) -> (forall v, In v fne -> 0 <= v) -> 0 <= reg1 < reg2 ->
  let rs := rects_of m n ok in let rd := grid_rdata m n ok in let nrec := records_of fe fne (rd_rows rd) in
  let feasible := feasible2 m n c rd (rates_of fe fne (rd_rows rd)) nrec in
  let sizes := map (rect_records n fe fne) in
  let best reg sol a b := feasible sol /\ size_bounds nrec sol a b /\
    forall sol' a' b', feasible sol' -> size_bounds nrec sol' a' b' -> objective_g reg (map w rs) sol' a' b' <= objective_g reg (map w rs) sol a b in
  best reg1 sol1 a1 b1 -> best reg2 sol2 a2 b2 ->
  is_spread (sizes (select sol1 rs)) s1 -> is_spread (sizes (select sol2 rs)) s2 ->
  s2 <= s1 /\ zsum (map w (select sol2 rs)) <= zsum (map w (select sol1 rs)).
Proof.
  intros * Hn He Hne Hr rs rd nrec feas sizes best (F1 & B1 & O1) (F2 & B2 & O2) S1 S2.
  pose proof (sound_g m n c fe fne ok Hn sol1 F1) as V1. pose proof (sound_g m n c fe fne ok Hn sol2 F2) as V2.
  pose proof (best_g m n c fe fne ok Hn He Hne reg1 w sol1 a1 b1 _ s1 s2 ltac:(lia) F1 B1 O1 V2 S2 S1) as H1.
  pose proof (best_g m n c fe fne ok Hn He Hne reg2 w sol2 a2 b2 _ s2 s1 ltac:(lia) F2 B2 O2 V1 S1 S2) as H2. fold rs in H1, H2.
  assert (s2 <= s1) by nia. split; [assumption|]. nia.
Qed.
Print Assumptions C68_larger_gamma.

(** ** solver="mip" *)

(** The bins partition the plane, the numbers of bins, sizes and trends are as requested (as with the default solver, C46). *)
Theorem C68_mip_requests : forall ax ay cx cy pre_x pre_y g c gamma solver P0 data f,
  fit2 ax ay cx cy pre_x pre_y g solver P0 data = Ok f -> sound_mip2 c gamma solver ->
  (forall k, length (P0 k) = k) -> (forall l, increasing (pre_x l)) -> (forall l, increasing (pre_y l)) ->
  at_least (min_bins2 c) (Z.of_nat (length (t_bx f))) /\ at_most (max_bins2 c) (Z.of_nat (length (t_bx f))) /\
  (forall x y, known ax x -> known ay y -> no_code cx x -> no_code cy y ->
     exists b, (b < length (t_bx f))%nat /\ shows ax (t_bx f) b x /\ shows ay (t_by f) b y /\
       forall b', shows ax (t_bx f) b' x -> shows ay (t_by f) b' y -> b' = b) /\
  (forall b b' lo s hi, nth_error (t_bx f) b = Some (lo, Some s) -> nth_error (t_bx f) b' = Some (Some s, hi) ->
     (exists v, in_interval (t_by f) b v /\ in_interval (t_by f) b' v) ->
     follows (trend_x c) (diff_x c) (row_rate f b) (row_rate f b')) /\
  (forall b b' lo s hi, nth_error (t_by f) b = Some (lo, Some s) -> nth_error (t_by f) b' = Some (Some s, hi) ->
     (exists v, in_interval (t_bx f) b v /\ in_interval (t_bx f) b' v) ->
     follows (trend_y c) (diff_y c) (row_rate f b) (row_rate f b')).
Proof.
  intros * Hfit Hs HP0 Hpx Hpy. apply sound_mip_cp in Hs.
  assert (ND : forall l : list Z, increasing l -> nondecreasing l) by (intros l H; now apply incr_nondecr).
  destruct (C46_limits _ _ _ _ _ _ _ _ _ _ _ _ Hfit Hs HP0) as (L1 & L2 & _).
  split; [exact L1|]. split; [exact L2|]. split; [|split].
  - intros x y Kx Ky Cx Cy. destruct (C46_bins_partition_plane _ _ _ _ _ _ _ _ _ _ _ _ Empirical Empirical x y Hfit Hs HP0 (fun l => ND _ (Hpx l)) (fun l => ND _ (Hpy l)) Kx Ky Cx Cy) as (b & B1 & B2 & B3 & B4 & _).
    exists b. auto.
  - intros b b' lo s hi Hb Hb' Hv. exact (C46_monotone_x _ _ _ _ _ _ _ _ _ _ _ _ b b' lo s hi Hfit Hs HP0 Hpx (fun l => ND _ (Hpy l)) Hb Hb' Hv).
  - intros b b' lo s hi Hb Hb' Hv. exact (C46_monotone_y _ _ _ _ _ _ _ _ _ _ _ _ b b' lo s hi Hfit Hs HP0 (fun l => ND _ (Hpx l)) Hpy Hb Hb' Hv).
Qed.
Print Assumptions C68_mip_requests.

Section MipBest.
Variables (m n : nat) (c : cfg2) (fe fne : list Z) (ok : list nat -> bool).
Hypothesis Hn : (0 < n)%nat.
Hypothesis He : forall v, In v fe -> 0 <= v.
Hypothesis Hne : forall v, In v fne -> 0 <= v.
Let rs := rects_of m n ok.
Let rd := grid_rdata m n ok.
Let nrec := records_of fe fne (rd_rows rd).
Let feas gamma := feasible_mip2 m n c gamma rd (rates_of fe fne (rd_rows rd)) nrec.
Let valid := valid_tiling m n c (fun r => ok (cells n r) = true) (fun r => TwoD.rate (cell_sum fe (cells n r)) (cell_sum fne (cells n r))).
Let size := rect_records n fe fne.
Lemma mip_best gamma (w : rect -> R) xs a b ts s s' : (0 <= gamma)%R -> feas gamma xs a b ->
  (forall xs' a' b', feas gamma xs' a' b' -> (objective_mip2 gamma (map w rs) nrec xs' a' b' <= objective_mip2 gamma (map w rs) nrec xs a b)%R) ->
  valid ts -> is_spread (map size ts) s' -> is_spread (map size (select (mip_vector xs) rs)) s ->
  (rsum (map w ts) - gamma / IZR (zsum nrec) * IZR s' <= rsum (map w (select (mip_vector xs) rs)) - gamma / IZR (zsum nrec) * IZR s)%R.
Proof.
  intros Hg HF Hopt HV HS' HS. pose proof HF as (HL & H01 & _ & _ & _ & _ & HZ).
  assert (Lr : length xs = length nrec) by (rewrite HL; unfold nrec, records_of; now rewrite map_length).
  destruct (complete_g m n (no_gamma c) fe fne ok Hn He Hne ts s' HV HS') as (sol' & a' & b' & HF' & HB' & Es & HP). fold rs rd in HF', HP. fold nrec in HF', HB'.
  assert (Np : forall v, In v nrec -> 0 <= v) by (intros v Hv; apply (nrec_pos m n c fe fne ok); assumption).
  assert (Ls : length sol' = length nrec) by (destruct HF' as (L & _); rewrite L; unfold nrec, records_of; now rewrite map_length).
  assert (HF2 : feas gamma (as_values sol') (IZR a') (IZR b')).
  { apply mip2_of_base; [exact HF'|]. intros _. apply (mv_sizes (as_values sol') (as_values_01 sol') nrec); [now rewrite as_values_len|exact Np|].
    rewrite as_values_back. apply size_bounds_iff in HB'; auto. destruct HB' as (Z1 & Z2 & Z3 & Z4). repeat (split; [apply IZR_le; assumption|]).
    intros v Hv. destruct (Z4 v Hv). split; apply IZR_le; assumption. }
  specialize (Hopt _ _ _ HF2). unfold objective_mip2 in Hopt. rewrite (objR_sum w rs xs H01), (objR_sum w rs _ (as_values_01 sol')), as_values_back in Hopt.
  assert (EP : rsum (map w (select sol' rs)) = rsum (map w ts)).
  { assert (RP : forall l l' : list R, Permutation l l' -> rsum l = rsum l') by (intros l l' P; induction P; cbn [rsum]; lra). apply RP, Permutation_map, HP. }
  rewrite EP in Hopt. destruct (Req_EM_T gamma 0) as [E|E].
  - rewrite E. unfold Rdiv. rewrite !Rmult_0_l. lra.
  - specialize (HZ E). apply (mv_sizes xs H01 nrec a b Lr Np) in HZ. destruct HZ as (Z1 & Z2 & Z3 & Z4).
    assert (Sl : (IZR s <= b - a)%R).
    { destruct HS as (lo & hi & A1 & A2 & _ & ->). fold size in A1, A2. unfold size, rs in A1, A2.
      assert (Q : select (mip_vector xs) nrec = map size (select (mip_vector xs) rs)) by apply nrec_sel.
      destruct (Z4 lo) as [Q1 _]; [rewrite Q; exact A1|]. destruct (Z4 hi) as [_ Q2]; [rewrite Q; exact A2|]. rewrite minus_IZR. lra. }
    assert (G0 : (0 <= gamma / IZR (zsum nrec))%R).
    { unfold Rdiv. apply Rmult_le_pos; [exact Hg|]. destruct (zs_nonneg nrec Np) as [T0 _]. apply IZR_le in T0. destruct (Req_dec (IZR (zsum nrec)) 0) as [E0|E0]; [rewrite E0, Rinv_0; lra|apply Rlt_le, Rinv_0_lt_compat; lra]. }
    rewrite Es. rewrite (minus_IZR b' a').
    assert (gamma / IZR (zsum nrec) * IZR s <= gamma / IZR (zsum nrec) * (b - a))%R by (apply Rmult_le_compat_l; assumption). lra.
Qed.
Lemma mip_sound gamma xs a b : feas gamma xs a b -> valid (select (mip_vector xs) rs).
Proof. intros HF. apply mip2_base in HF. exact (sound_g m n (no_gamma c) fe fne ok Hn _ HF). Qed.
End MipBest.

(** With real arithmetic the answer maximises divergence - gamma/T * (largest bin - smallest bin) exactly, T being the records of all
    candidate rectangles together; without gamma it maximises the divergence. *)
Theorem C68_mip_optimal_divergence : forall m n c fe fne ok d gamma xs a b ts s s', (0 < n)%nat -> (forall v, In v fe -> 0 <= v) -> (forall v, In v fne -> 0 <= v) ->
  (0 <= gamma)%R ->
  let rs := rects_of m n ok in let rd := grid_rdata m n ok in let nrec := records_of fe fne (rd_rows rd) in
  let feasible := feasible_mip2 m n c gamma rd (rates_of fe fne (rd_rows rd)) nrec in
  let counts := fun r => (cell_sum fne (cells n r), cell_sum fe (cells n r)) in
  let obj := objective_mip2 gamma (map (fun r => div_of d (zsum fne, zsum fe) (counts r)) rs) nrec in
  let divergence := fun l => rsum (map (fun r => bin_divergence d (zsum fne, zsum fe) (counts r)) l) in
  let sizes := map (rect_records n fe fne) in
  let T := IZR (zsum (sizes rs)) in
  let sol := select (mip_vector xs) rs in
  feasible xs a b -> (forall xs' a' b', feasible xs' a' b' -> (obj xs' a' b' <= obj xs a b)%R) ->
  valid_tiling m n c (fun r => ok (cells n r) = true) (fun r => TwoD.rate (cell_sum fe (cells n r)) (cell_sum fne (cells n r))) ts ->
  is_spread (sizes ts) s' -> is_spread (sizes sol) s ->
  (divergence ts - gamma / T * IZR s' <= divergence sol - gamma / T * IZR s)%R.
Proof.
  intros * Hn He Hne Hg rs rd nrec feas counts obj dv sizes T sol HF Hopt HV HS' HS.
  pose proof (mip_best m n c fe fne ok Hn He Hne gamma _ xs a b ts s s' Hg HF Hopt HV HS' HS) as H. fold rs rd in H. fold nrec in H.
  assert (ET : T = IZR (zsum nrec)) by (unfold T, sizes, nrec, rs, rd; now rewrite nrec_map).
  assert (ED : forall l, dv l = rsum (map (fun r => div_of d (zsum fne, zsum fe) (counts r)) l)) by (intros l; unfold dv; f_equal; apply map_ext; intros r; symmetry; apply div_of_spec).
  rewrite ET, !ED. exact H.
Qed.
Print Assumptions C68_mip_optimal_divergence.

(** ... and a larger gamma never gives a larger spread of the bin sizes. *)
Theorem C68_mip_larger_gamma : forall m n c fe fne ok w g1 g2 xs1 a1 b1 s1 xs2 a2 b2 s2,
  (0 < n)%nat -> (forall v, In v fe -> 0 <= v) -> (forall v, In v fne -> 0 <= v) -> (0 <= g1 < g2)%R ->
  let rs := rects_of m n ok in let rd := grid_rdata m n ok in let nrec := records_of fe fne (rd_rows rd) in
  let feasible g := feasible_mip2 m n c g rd (rates_of fe fne (rd_rows rd)) nrec in
  let sizes := map (rect_records n fe fne) in
  let best g xs a b := feasible g xs a b /\
    forall xs' a' b', feasible g xs' a' b' -> (objective_mip2 g (map w rs) nrec xs' a' b' <= objective_mip2 g (map w rs) nrec xs a b)%R in
  0 < zsum (sizes rs) -> best g1 xs1 a1 b1 -> best g2 xs2 a2 b2 ->
  is_spread (sizes (select (mip_vector xs1) rs)) s1 -> is_spread (sizes (select (mip_vector xs2) rs)) s2 -> s2 <= s1.
Proof.
  intros * Hn He Hne Hg rs rd nrec feas sizes best HT (F1 & O1) (F2 & O2) S1 S2.
  pose proof (mip_sound m n c fe fne ok Hn g1 _ _ _ F1) as V1. pose proof (mip_sound m n c fe fne ok Hn g2 _ _ _ F2) as V2.
  pose proof (mip_best m n c fe fne ok Hn He Hne g1 w xs1 a1 b1 _ s1 s2 ltac:(lra) F1 O1 V2 S2 S1) as H1.
  pose proof (mip_best m n c fe fne ok Hn He Hne g2 w xs2 a2 b2 _ s2 s1 ltac:(lra) F2 O2 V1 S1 S2) as H2. fold rs rd in H1, H2. fold nrec in H1, H2.
  assert (ET : zsum nrec = zsum (sizes rs)) by (unfold sizes, nrec, rs, rd; now rewrite nrec_map). rewrite ET in H1, H2.
  apply IZR_lt in HT. set (T := IZR (zsum (sizes rs))) in *. apply le_IZR. destruct (Rle_dec (IZR s2) (IZR s1)) as [H|H]; [exact H|]. exfalso.
  assert (g1 / T < g2 / T)%R by (apply Rmult_lt_compat_r; [now apply Rinv_0_lt_compat|lra]).
  assert (g1 / T * (IZR s2 - IZR s1) < g2 / T * (IZR s2 - IZR s1))%R by (apply Rmult_lt_compat_r; lra). lra.
Qed.
Print Assumptions C68_mip_larger_gamma.

(** ** Concrete cases: a 1 x 2 grid with cells of 2 and 4 records; one bin, or two. *)
Definition g68 : cfg2 := {| trend_x := None; trend_y := None; min_bins2 := None; max_bins2 := Some 2; diff_x := 0; diff_y := 0; gamma2 := true |}.
Definition w68 (r : rect) : Z := if (Nat.eqb (length (cells 2 r)) 1) then 1 else 0.
Example C68_hyps_met :
  let rs := rects_of 1 2 (fun _ => true) in let rd := grid_rdata 1 2 (fun _ => true) in let nrec := records_of [1; 3] [1; 1] (rd_rows rd) in
  let feasible := feasible2 1 2 g68 rd (rates_of [1; 3] [1; 1] (rd_rows rd)) nrec in
  let best reg sol a b := feasible sol /\ size_bounds nrec sol a b /\
    forall sol' a' b', feasible sol' -> size_bounds nrec sol' a' b' -> objective_g reg (map w68 rs) sol' a' b' <= objective_g reg (map w68 rs) sol a b in
  exists sol1 sol2, best 0 sol1 2 4 /\ best 2 sol2 6 6 /\
    map (rect_records 2 [1; 3] [1; 1]) (select sol1 rs) = [2; 4] /\ map (rect_records 2 [1; 3] [1; 1]) (select sol2 rs) = [6].
Proof.
  intros rs rd nrec feasible best.
  assert (Es : map (rect_records 2 [1; 3] [1; 1]) rs = [2; 6; 4] \/ map (rect_records 2 [1; 3] [1; 1]) rs = [2; 4; 6] \/ map (rect_records 2 [1; 3] [1; 1]) rs = [6; 2; 4]) by (vm_compute; auto).
  pose (sol1 := map (fun r => Z.eqb (w68 r) 1) rs). pose (sol2 := map (fun r => Z.eqb (w68 r) 0) rs).
  assert (Fe : forall sol, sol = sol1 \/ sol = sol2 -> feasible sol).
  { intros sol H. assert (L : length sol = 3%nat) by (destruct H as [-> | ->]; reflexivity).
    unfold feasible, feasible2. split; [exact L|]. split; [|split; [|split; [exact I|split; [exact I|]]]].
    - intros [|[|k]] Hk; [| |lia]; destruct H as [-> | ->]; vm_compute; reflexivity.
    - unfold min_max_bins2. cbn [min_bins2 max_bins2 g68]. destruct H as [-> | ->]; vm_compute; discriminate.
    - unfold dominating2. cbn [gamma2 g68]. exists 0, (zsum nrec). split; [vm_compute; intuition discriminate|]. split; [vm_compute; intuition discriminate|]. split; [vm_compute; discriminate|].
      intros [|[|[|k]]] Hk; [| | |cbn in Hk; lia]; destruct H as [-> | ->]; vm_compute; intuition discriminate. }
  assert (Only : forall sol, feasible sol -> sol = sol1 \/ sol = sol2).
  { intros sol (L & U & _). pose proof (U 0%nat ltac:(lia)) as U0. pose proof (U 1%nat ltac:(lia)) as U1. clear U.
    change (length (rd_rows rd)) with 3%nat in L. destruct sol as [|x [|y [|z [|]]]]; try discriminate L.
    destruct x, y, z; vm_compute in U0, U1; try discriminate; vm_compute; auto. }
  assert (B1 : size_bounds nrec sol1 2 4).
  { unfold size_bounds. cbv zeta. split; [vm_compute; intuition discriminate|]. split; [vm_compute; intuition discriminate|]. split; [lia|].
    intros [|[|[|k]]] Hk; [| | |cbn in Hk; lia]; vm_compute; intuition discriminate. }
  assert (B2 : size_bounds nrec sol2 6 6).
  { unfold size_bounds. cbv zeta. split; [vm_compute; intuition discriminate|]. split; [vm_compute; intuition discriminate|]. split; [lia|].
    intros [|[|[|k]]] Hk; [| | |cbn in Hk; lia]; vm_compute; intuition discriminate. }
  assert (Sp1 : forall a b, size_bounds nrec sol1 a b -> 2 <= b - a).
  { intros a b H. apply (spread_le nrec sol1 2 a b); [reflexivity|intros v Hv; vm_compute in Hv; intuition lia| |exact H].
    exists 2, 4. vm_compute. intuition (try discriminate); subst; vm_compute in *; discriminate. }
  assert (Sp2 : forall a b, size_bounds nrec sol2 a b -> 0 <= b - a) by (intros a b (_ & _ & H & _); lia).
  assert (O1 : forall reg a b, objective_g reg (map w68 rs) sol1 a b = 2 - reg * (b - a)) by reflexivity.
  assert (O2 : forall reg a b, objective_g reg (map w68 rs) sol2 a b = 0 - reg * (b - a)) by reflexivity.
  exists sol1, sol2. split; [|split; [|split; reflexivity]].
  - split; [apply Fe; auto|]. split; [exact B1|]. intros sol' a' b' HF HB. destruct (Only _ HF) as [-> | ->]; rewrite ?O1, ?O2; lia.
  - split; [apply Fe; auto|]. split; [exact B2|]. intros sol' a' b' HF HB. destruct (Only _ HF) as [-> | ->]; rewrite ?O1, ?O2; [pose proof (Sp1 _ _ HB)|pose proof (Sp2 _ _ HB)]; lia.
Qed.
Example C68_mip_hyps_met : sound_mip2 ex_cfg 0 (brute ex_cfg) /\ exists f, ex_fit = Ok f /\ length (t_bx f) = 4%nat.
Proof.
  split; [|eexists; split; [vm_compute; reflexivity|reflexivity]].
  intros m n rd er nrec sol H. apply brute_sound in H. exists (as_values sol), 0%R, 0%R. split; [|symmetry; apply as_values_back].
  apply mip2_of_base; [exact H|]. intros Q. contradiction Q; reflexivity.
Qed.
