(** Property theorems for solver="mip" (mip.py). The MIP solver is trusted to return a 0/1 assignment satisfying the posted
    constraints ([mip_solved]); the case of values only close to 0/1 is [C64_tolerance_refuted]. *)
From Coq Require Import List ZArith Bool Arith Reals Lra Lia QArith.
From Verif Require Import Model.Arr Model.Core Model.Metrics Model.CP Model.MIP Spec.CPSpec Spec.CPFitSpec Spec.MIPSpec Spec.ScaledSpec
  Proofs.MetricsP Proofs.MetricsQ Proofs.CPP Proofs.CPC Proofs.CPTable Proofs.CPFinal Proofs.MIPP Proofs.MIPQ Proofs.MIPR Proofs.ScaledP Props.CPProps.
Import ListNotations.
Open Scope Z_scope.

(** the heuristics' trend change is a prebin index *)
Definition change_in_range (n : nat) (g : cp_cfg) : Prop :=
  forall tc, g_trend g = TPeakHeuristic tc \/ g_trend g = TValleyHeuristic tc -> (tc <= n)%nat.

Lemma mip_groups wu d solver sp fixed user splits0 xs ys sw f g X :
  fit_numerical wu d solver sp fixed user splits0 xs ys sw = Some (Ok f) -> mip_solved f solver g X ->
  exists gs, fit_facts f solver X gs.
Proof.
  intros Hf (Hn & Hs & HF). assert (HS : structural (length (pb_nev (f_prebins f))) X) by (destruct HF as (A & B & C & _); repeat split; assumption).
  rewrite mip_vector_01 in Hs by apply HS. exact (fit_groups _ _ _ _ _ _ _ _ _ _ _ _ Hf Hn Hs HS).
Qed.

(** every request is met by the binning table, on exact event rates *)
Theorem C64_requests_honoured : forall wu d solver sp fixed user splits0 xs ys sw f g X pol test md,
  0 < wu -> (forall w, In w sw -> 0 <= w) -> d = IV \/ d = JS ->
  fit_numerical wu d solver sp fixed user splits0 xs ys sw = Some (Ok f) -> mip_solved f solver g X ->
  let ne := pb_nev (f_prebins f) in let ev := pb_ev (f_prebins f) in
  change_in_range (length ne) g -> g_pviol g = pviol_of pol test ne ev -> g_dviol g = dviol_ofR md ne ev ->
  length (clean_rows f) = (length (f_splits f) + 1)%nat /\
  within (g_min_bins g) (g_max_bins g) (Z.of_nat (length (f_splits f) + 1)) /\
  Forall (fun r => within (g_min_size g) (g_max_size g) (records r) /\
     within (g_min_ne g) (g_max_ne g) (fst r) /\ within (g_min_e g) (g_max_e g) (snd r)) (clean_rows f) /\
  trend_holds (g_trend g) (clean_rows f) /\
  pvalue_ok pol test (clean_rows f) /\
  neighbours (apartR md) (clean_rows f) /\
  (forall fx i s, g_fixed g = Some fx -> nth_error fx i = Some true -> nth_error (pb_splits (f_prebins f)) i = Some s -> In s (f_splits f)).
Proof.
  intros * Hw Hsw Hd Hf Hsol ne ev Htc Epv Edv. pose proof (fit_pos _ _ _ _ _ _ _ _ _ _ _ Hw Hsw Hd Hf) as [Pn Pe].
  destruct (mip_groups _ _ _ _ _ _ _ _ _ _ _ _ _ Hf Hsol) as [gs [Hp Hr Hl Hsp Hnb Hrows Hk]]. destruct Hsol as (Hn & Hs & HF).
  fold ne ev in Hn, HF, Hp, Hr, Hl, Pn, Pe, Hrows.
  destruct (sound_request ne ev g X Hl Pn Pe Htc gs ltac:(lia) Hp Hr pol test md HF Epv Edv) as [R1 R2 R3 R4 R5 R6 R7 R8].
  rewrite Hrows. split; [unfold rows_of; rewrite map_length; lia|].
  split; [replace (length (f_splits f) + 1)%nat with (length gs) by lia; exact R2|].
  split; [rewrite Forall_forall in *; intros r Hin; auto|].
  split; [exact R1|]. split; [exact R6|]. split; [exact R7|].
  intros fx i s Eg Hi Hsi. apply (Hk i s Hsi). apply (R8 fx i Eg); [|exact Hi].
  assert (i < length (pb_splits (f_prebins f)))%nat by (apply nth_error_Some; congruence). fold ne in Hsp. lia.
Qed.
Print Assumptions C64_requests_honoured.

(** every partition of the prebins that meets the request exactly can be posted: the constraints exclude none (trends none,
    ascending, descending, peak, valley; min_event_rate_diff <> 0, so without the pre-processing cuts) *)
Theorem C64_valid_binning_feasible : forall ne ev gs g pol test md,
  (0 < length ne)%nat -> length ne = length ev -> pos_list ne -> pos_list ev -> partition (length ne) gs ->
  In (g_trend g) [TNone; TAscending; TDescending; TPeak; TValley] -> g_md0 g = false ->
  g_pviol g = pviol_of pol test ne ev -> g_dviol g = dviol_ofR md ne ev ->
  request_met ne ev gs g pol test md <->
  exists X, describes (length ne) gs X /\ feasibleR (length ne) (rate_matR ne ev) (at0 ne) (at0 ev) g X.
Proof.
  intros * Hn Hl Pn Pe Hp Ht Hmd Epv Edv.
  assert (Htc : change_in_range (length ne) g).
  { intros tc [E|E]; rewrite E in Ht; cbn in Ht; decompose [or] Ht; try discriminate; contradiction. }
  assert (Hct : complete_trend (g_trend g)) by (cbn in Ht; decompose [or] Ht; try contradiction; match goal with H : _ = g_trend g |- _ => rewrite <- H; exact I end).
  split.
  - intros H. exists (mat_of gs). pose proof (mat_of_represents (length ne) gs) as Hr. split; [exact Hr|].
    exact (complete_request ne ev g (mat_of gs) Hl Pn Pe Htc gs Hn Hp Hr pol test md Hmd Hct Epv Edv H).
  - intros (X & Hr & HF). exact (sound_request ne ev g X Hl Pn Pe Htc gs Hn Hp Hr pol test md HF Epv Edv).
Qed.
Print Assumptions C64_valid_binning_feasible.

(** the objective is the total divergence of the table, and an optimal assignment beats every partition meeting the request *)
Theorem C64_optimal_divergence : forall wu d solver sp fixed user splits0 xs ys sw f g X pol test md,
  0 < wu -> (forall w, In w sw -> 0 <= w) -> d = IV \/ d = JS ->
  fit_numerical wu d solver sp fixed user splits0 xs ys sw = Some (Ok f) -> mip_solved f solver g X ->
  let ne := pb_nev (f_prebins f) in let ev := pb_ev (f_prebins f) in
  let V := div_matR (div_term d ne ev) ne ev in
  let total rows := rsum (map (bin_divergence d (zsum ne, zsum ev)) rows) in
  objectiveR (length ne) V X = total (clean_rows f) /\
  ((forall X', feasibleR (length ne) (rate_matR ne ev) (at0 ne) (at0 ev) g X' -> (objectiveR (length ne) V X' <= objectiveR (length ne) V X)%R) ->
   In (g_trend g) [TNone; TAscending; TDescending; TPeak; TValley] -> g_md0 g = false ->
   g_pviol g = pviol_of pol test ne ev -> g_dviol g = dviol_ofR md ne ev ->
   forall gs', partition (length ne) gs' -> request_met ne ev gs' g pol test md -> (total (rows_of ne ev gs') <= total (clean_rows f))%R).
Proof.
  intros * Hw Hsw Hd Hf Hsol ne ev V total. pose proof (fit_pos _ _ _ _ _ _ _ _ _ _ _ Hw Hsw Hd Hf) as [Pn Pe].
  destruct (mip_groups _ _ _ _ _ _ _ _ _ _ _ _ _ Hf Hsol) as [gs [Hp Hr Hl Hsp Hnb Hrows Hk]]. destruct Hsol as (Hn & Hs & HF).
  fold ne ev in Hn, HF, Hp, Hr, Hl, Pn, Pe, Hrows.
  assert (OB : forall hs Y, partition (length ne) hs -> describes (length ne) hs Y -> objectiveR (length ne) V Y = total (rows_of ne ev hs)).
  { intros hs Y Hp' Hr'. rewrite (objectiveR_groups (length ne) hs Y Hp' Hr'). unfold total, rows_of. rewrite map_map. apply rsum_ext.
    intros [s e] Hin. pose proof (chain_in _ _ _ _ _ Hp' Hin). unfold V, div_matR. cbn [fst snd]. rewrite !cum_mat_gsum by lia. exact (div_of_spec d (zsum ne, zsum ev) (gsum ne (s, e), gsum ev (s, e))). }
  split; [rewrite Hrows; now apply OB|]. intros Hopt Ht Hmd Epv Edv gs' Hp' Hreq.
  apply (C64_valid_binning_feasible ne ev gs' g pol test md ltac:(lia) Hl Pn Pe Hp' Ht Hmd Epv Edv) in Hreq. destruct Hreq as (X' & Hr' & HF').
  rewrite Hrows, <- (OB gs' X' Hp' Hr'), <- (OB gs X Hp Hr). now apply Hopt.
Qed.
Print Assumptions C64_optimal_divergence.

(** with min_event_rate_diff = 0 (the default) the pre-processing rejects a partition with increasing event rates (0.2, 0.55) *)
Lemma ex64_met b : request_met ex15_ne ex15_ev [(0, 1); (2, 3)]%nat (ex15_g b) PVNone (fun _ _ => false) 0.
Proof.
  constructor; cbn; try exact I; try discriminate; try (split; [apply Rabs_pos|exact I]);
    repeat constructor; try discriminate; try (vm_compute; discriminate).
Qed.
Theorem C64_preprocessing_rejects_valid_refuted :
  let gs := [(0, 1); (2, 3)]%nat in
  partition 4 gs /\ request_met ex15_ne ex15_ev gs (ex15_g true) PVNone (fun _ _ => false) 0 /\
  (forall X, describes 4 gs X -> ~ feasibleR 4 (rate_matR ex15_ne ex15_ev) (at0 ex15_ne) (at0 ex15_ev) (ex15_g true) X).
Proof.
  intros gs. assert (Hp : partition 4 gs) by repeat constructor.
  split; [exact Hp|]. split; [apply ex64_met|].
  intros X Hr (_ & _ & _ & _ & _ & _ & _ & Ht & _). destruct Ht as [_ Ht].
  destruct (Ht eq_refl 1%nat ltac:(lia) ltac:(lia)) as [E _].
  - unfold rate_matR. cbn -[IZR]. lra.
  - rewrite (diag1 4 gs X Hp Hr 0 1) in E by (cbn; tauto). discriminate.
Qed.
Print Assumptions C64_preprocessing_rejects_valid_refuted.

(** with the concave trend the constraints reject a partition into two bins, although two bins are always concave *)
Theorem C64_concave_rejects_two_bins_refuted : exists ne ev gs, partition 3 gs /\ length gs = 2%nat /\
  trend_holds TConcave (rows_of ne ev gs) /\ rows_of ne ev gs = [(4, 6); (6, 14)] /\
  forall X, describes 3 gs X -> ~ concaveR 3 (rate_matR ne ev) X.
Proof.
  exists [4; 3; 3], [6; 7; 7], [(0, 0); (1, 2)]%nat.
  split; [repeat constructor|]. split; [reflexivity|]. split; [repeat constructor|]. split; [reflexivity|].
  intros X Hr Hc. assert (Hp : partition 3 [(0, 0); (1, 2)]%nat) by repeat constructor.
  specialize (Hc 2%nat 1%nat 0%nat ltac:(lia) ltac:(lia) ltac:(lia)). unfold row_rateR in Hc.
  rewrite (teleR_end 3 _ X Hp Hr _ 1 2) in Hc by (cbn; tauto).
  rewrite (teleR_end 3 _ X Hp Hr _ 0 0) in Hc by (cbn; tauto).
  assert (No : forall s, ~ In (s, 1%nat) [(0, 0); (1, 2)]%nat) by (intros s [E|[E|[]]]; discriminate).
  rewrite (teleR_other 3 _ X Hr _ 1 ltac:(lia) No) in Hc.
  rewrite (diag0 3 _ X Hr 1 ltac:(lia) No) in Hc.
  rewrite (diag1 3 _ X Hp Hr 1 2) in Hc by (cbn; tauto). rewrite (diag1 3 _ X Hp Hr 0 0) in Hc by (cbn; tauto).
  unfold rate_matR in Hc. cbn -[IZR] in Hc. lra.
Qed.
Print Assumptions C64_concave_rejects_two_bins_refuted.

(** solver values within any tolerance of a feasible 0/1 assignment: the result may have more bins than max_n_bins, because
    [astype(bool)] turns every non-zero value into True *)
Definition ex64_g := {| g_trend := TNone; g_min_bins := None; g_max_bins := Some 2;
  g_min_size := None; g_max_size := None; g_min_ne := None; g_max_ne := None; g_min_e := None; g_max_e := None;
  g_md0 := false; g_fixed := None; g_pviol := []; g_dviol := [] |}.
Definition ex64_x := [XNum 1; XNum 1; XNum 2; XNum 2; XNum 3; XNum 3].
Definition ex64_y := [Y0; Y1; Y0; Y1; Y0; Y1].
Theorem C64_tolerance_refuted : forall eps, (0 < eps)%R -> exists X values f,
  let ne := pb_nev (f_prebins f) in let ev := pb_ev (f_prebins f) in
  feasibleR 3 (rate_matR ne ev) (at0 ne) (at0 ev) ex64_g X /\ length values = 3%nat /\
  (forall i v, nth_error values i = Some v -> (Rabs (v - IZR (X i i)) < eps)%R) /\
  fit_numerical 1 IV (fun _ _ => mip_vector values) SpNone None None [2; 3] ex64_x ex64_y [1; 1; 1; 1; 1; 1] = Some (Ok f) /\
  length (pb_nev (f_prebins f)) = 3%nat /\
  g_max_bins ex64_g = Some 2 /\ length (clean_rows f) = 3%nat.
Proof.
  intros eps He.
  assert (V : mip_vector [1; eps / 2; 1]%R = [true; true; true]).
  { unfold mip_vector. cbn [map]. destruct (Req_EM_T 1 0); [lra|]. destruct (Req_EM_T (eps / 2) 0); [lra|reflexivity]. }
  destruct (fit_numerical 1 IV (fun _ _ => [true; true; true]) SpNone None None [2; 3] ex64_x ex64_y [1; 1; 1; 1; 1; 1]) as [[f|]|] eqn:E;
    [|exfalso; vm_compute in E; discriminate E|exfalso; vm_compute in E; discriminate E].
  assert (Ef : pb_nev (f_prebins f) = [1; 1; 1] /\ pb_ev (f_prebins f) = [1; 1; 1] /\ length (clean_rows f) = 3%nat)
    by (vm_compute in E; injection E as <-; repeat split; reflexivity).
  destruct Ef as (E1 & E2 & E3).
  exists (mat_of [(0, 0); (1, 2)]%nat), [1; eps / 2; 1]%R, f. cbv zeta. rewrite E1, E2, V.
  split.
  { apply (complete_request [1; 1; 1] [1; 1; 1] ex64_g _ eq_refl) with (gs := [(0, 0); (1, 2)]%nat) (pol := PVNone) (test := fun _ _ => false) (md := 0%R);
      try reflexivity; try exact I.
    - intros a H; cbn in H; intuition lia.
    - intros a H; cbn in H; intuition lia.
    - intros tc [H|H]; discriminate H.
    - cbn. lia.
    - repeat constructor.
    - apply (mat_of_represents 3).
    - unfold dviol_ofR. destruct (Rlt_dec 0 0); [lra|reflexivity].
    - constructor; cbn; try exact I; try discriminate; try (split; [apply Rabs_pos|exact I]);
        repeat constructor; try discriminate; try (intros b Hb; injection Hb as <-; lia). }
  split; [reflexivity|]. split; [|split; [exact E|split; [reflexivity|split; [reflexivity|exact E3]]]].
  intros i v Hv. destruct i as [|[|[|i]]]; cbn in Hv; [| | |destruct i; discriminate Hv]; injection Hv as <-; cbn -[IZR]; unfold Rabs; destruct (Rcase_abs _); lra.
Qed.
Print Assumptions C64_tolerance_refuted.

Example C64_hyps_met : exists f X,
  fit_numerical 1 IV (fun _ _ => [true; false; true]) SpNone None None [2; 3] ex64_x ex64_y [1; 1; 1; 1; 1; 1] = Some (Ok f) /\
  mip_solved f (fun _ _ => [true; false; true]) ex64_g X /\ change_in_range 3 ex64_g /\
  clean_rows f = [(1, 1); (2, 2)] /\
  request_met ex15_ne ex15_ev [(0, 1); (2, 3)]%nat (ex15_g false) PVNone (fun _ _ => false) 0.
Proof.
  destruct (fit_numerical 1 IV (fun _ _ => [true; false; true]) SpNone None None [2; 3] ex64_x ex64_y [1; 1; 1; 1; 1; 1]) as [[f|]|] eqn:E;
    [|exfalso; vm_compute in E; discriminate E|exfalso; vm_compute in E; discriminate E].
  assert (Ef : pb_nev (f_prebins f) = [1; 1; 1] /\ pb_ev (f_prebins f) = [1; 1; 1] /\ clean_rows f = [(1, 1); (2, 2)])
    by (vm_compute in E; injection E as <-; repeat split; reflexivity).
  destruct Ef as (E1 & E2 & E3).
  exists f, (mat_of [(0, 0); (1, 2)]%nat). split; [reflexivity|]. unfold mip_solved. cbv zeta. rewrite E1, E2.
  assert (HF : feasibleR 3 (rate_matR [1; 1; 1] [1; 1; 1]) (at0 [1; 1; 1]) (at0 [1; 1; 1]) ex64_g (mat_of [(0, 0); (1, 2)]%nat)).
  { apply (complete_request [1; 1; 1] [1; 1; 1] ex64_g _ eq_refl) with (gs := [(0, 0); (1, 2)]%nat) (pol := PVNone) (test := fun _ _ => false) (md := 0%R);
      try reflexivity; try exact I.
    - intros a H; cbn in H; intuition lia.
    - intros a H; cbn in H; intuition lia.
    - intros tc [H|H]; discriminate H.
    - cbn. lia.
    - repeat constructor.
    - apply (mat_of_represents 3).
    - unfold dviol_ofR. destruct (Rlt_dec 0 0); [lra|reflexivity].
    - constructor; cbn; try exact I; try discriminate; try (split; [apply Rabs_pos|exact I]);
        repeat constructor; try discriminate; try (intros b Hb; injection Hb as <-; lia). }
  split.
  - split; [cbn; lia|]. split; [|exact HF]. cbn [length]. rewrite mip_vector_01 by apply HF. reflexivity.
  - split; [intros tc [H|H]; discriminate H|]. split; [exact E3|apply ex64_met].
Qed.
