(** C80: the p-values listed by analysis() respect max_pvalue. *)
From Coq Require Import List ZArith QArith Bool Arith Lia Permutation Reals Lra.
From Verif Require Import Model.Arr Model.Core Model.CP Model.Cont Model.ContTable Model.Metrics Model.MultiTable Model.PValue
  Spec.CoreSpec Spec.CPSpec Spec.CPFitSpec Spec.ContSpec Spec.MetricsSpec Spec.MultiTableSpec Spec.PValueSpec
  Proofs.ArrP Proofs.CoreP Proofs.CPP Proofs.CPC Proofs.CPTable Proofs.CPFinal Proofs.ContP Proofs.ContTrend Proofs.MultiTableR Proofs.MultiTableS Proofs.PValueP
  Props.CPProps Props.ContProps Props.MultiTableProps.
Import ListNotations.
Open Scope R_scope.

(** The test used to forbid two neighbouring bins (two proportions, |z| against the normal quantile) is the p-value shown by
    analysis() (chi-square, two-by-two table) compared with max_pvalue, for every pair of bins with events and non-events. *)
Theorem C80_same_test : forall cdf ppf mp r1 r2, normal_law cdf ppf -> 0 <= mp <= 1 ->
  (0 < fst r1)%Z -> (0 < snd r1)%Z -> (0 < fst r2)%Z -> (0 < snd r2)%Z ->
  exists p, chi2_pvalue cdf (table2 r1 r2) = Ok p /\ 0 < p <= 1 /\ (proportions_bad ppf mp r1 r2 = false <-> p <= mp).
Proof.
  intros * L Hm A B C D. exists (two_sided cdf (z_statistic r1 r2)). split; [apply chi2_pvalue_z; split; assumption|].
  split; [apply (two_sided_range _ _ L)|apply (bad_iff _ _ L); exact Hm].
Qed.
Print Assumptions C80_same_test.

(** A fit with max_pvalue (either policy): analysis() lists one p-value per pair of consecutive bins, that of the two displayed
    rows, and none exceeds max_pvalue. *)
Theorem C80_analysis_pvalues : forall cdf ppf mp d solver sp fixed user splits0 xs ys sw f M g X pol,
  normal_law cdf ppf -> 0 <= mp <= 1 -> pol <> PVNone ->
  length xs = length ys -> length xs = length sw -> ~ In YNaN ys -> ~ In XNaN (flat_codes sp) -> sp_disjoint sp ->
  nondecreasing splits0 -> solver_ok solver -> (forall w, In w sw -> (0 <= w)%Z) ->
  fit_numerical 1 d solver sp fixed user splits0 xs ys sw = Some (Ok f) -> refines d = true -> solved f solver M g X ->
  g_pviol g = pviol_of pol (proportions_bad ppf mp) (pb_nev (f_prebins f)) (pb_ev (f_prebins f)) ->
  exists ps, bt_pvalues (chi2_pvalue cdf) (n_special sp) 0 (f_nev f) (f_ev f) = Ok ps /\
    length ps = length (f_splits f) /\
    (forall i, (i < length (f_splits f))%nat ->
       chi2_pvalue cdf (table2 (nth i (f_nev f) 0%Z, nth i (f_ev f) 0%Z) (nth (S i) (f_nev f) 0%Z, nth (S i) (f_ev f) 0%Z)) = Ok (nth i ps 0)) /\
    (forall p, In p ps -> 0 < p <= mp).
Proof.
  intros * L Hm Hpol H1 H2 H3 H4 H5 H6 H7 H8 H9 H10 Hs Hg.
  destruct (C70_binary_analysis d solver sp fixed user splits0 xs ys sw f H1 H2 H3 H4 H5 H6 H7 H8 H9 H10) as (M1 & P & _).
  destruct (bin_len _ _ _ _ _ _ _ _ _ _ H1 H2 H3 H4 H5 H6 H7 H9 H10) as [L1 L2].
  pose proof (C14_pvalue_honoured _ _ _ _ _ _ _ _ _ _ _ _ _ _ _ _ H9 Hs Hg) as Hp.
  assert (HN : neighbours (fun r1 r2 => proportions_bad ppf mp r1 r2 = false) (clean_rows f)).
  { destruct pol; [congruence|apply all_pairs_neighbours; exact Hp|exact Hp]. }
  set (k := length (f_splits f)) in *.
  set (row := fun i => (nth i (f_nev f) 0%Z, nth i (f_ev f) 0%Z)).
  assert (RP : forall i, (i <= k)%nat -> (0 < k)%nat -> row_pos (row i)).
  { intros i Hi Hk. apply P; [destruct (f_splits f); [cbn in Hk; lia|discriminate]|lia]. }
  assert (CR : forall i, (i <= k)%nat -> nth i (clean_rows f) (0, 0)%Z = row i).
  { intros i Hi. unfold clean_rows. fold k. rewrite nth_firstn' by lia. apply combine_nth. lia. }
  assert (LC : length (clean_rows f) = S k) by (unfold clean_rows; rewrite firstn_length, combine_length; fold k; lia).
  exists (map (fun i => two_sided cdf (z_statistic (row i) (row (S i)))) (seq 0 k)). split; [|split; [|split]].
  - unfold bt_pvalues. rewrite M1. replace (S k - 1)%nat with k by lia. apply collect_map. intros i Hi. apply in_seq in Hi.
    unfold bt_pair. rewrite M1. cbv zeta.
    rewrite !(firstn2_skipn 0%Z) by (rewrite firstn_length; lia). rewrite !nth_firstn' by lia.
    apply (chi2_pvalue_z cdf (row i) (row (S i))); apply RP; lia.
  - now rewrite map_length, seq_length.
  - intros i Hi. fold (row i). fold (row (S i)). rewrite (chi2_pvalue_z cdf) by (apply RP; lia). f_equal.
    rewrite (nth_indep _ 0 (two_sided cdf (z_statistic (row 0%nat) (row 1%nat)))) by (rewrite map_length, seq_length; exact Hi).
    rewrite (map_nth (fun i => two_sided cdf (z_statistic (row i) (row (S i)))) (seq 0 k) 0%nat). rewrite seq_nth by exact Hi. reflexivity.
  - intros p Hp'. apply in_map_iff in Hp'. destruct Hp' as (i & <- & Hi). apply in_seq in Hi.
    split; [apply (two_sided_range _ _ L)|]. apply (bad_iff _ _ L _ _ _ Hm).
    rewrite (neighbours_nth _ (0, 0)%Z) in HN. specialize (HN i ltac:(lia)). rewrite !CR in HN by lia. exact HN.
Qed.
Print Assumptions C80_analysis_pvalues.

(** Nothing else is forbidden by max_pvalue: a merging of the prebins whose consecutive bins (policy "consecutive"), or any two
    bins (policy "all"), have chi-square p-values of at most max_pvalue meets the posted constraints. *)
Theorem C80_nothing_else_forbidden : forall cdf ppf mp ne ev pol gs X, normal_law cdf ppf -> 0 <= mp <= 1 ->
  (0 < length ne)%nat -> length ne = length ev -> partition (length ne) gs -> describes (length ne) gs X ->
  Forall (fun r => (0 < fst r)%Z /\ (0 < snd r)%Z) (rows_of ne ev gs) ->
  (let small r1 r2 := forall p, chi2_pvalue cdf (table2 r1 r2) = Ok p -> p <= mp in
   match pol with PVNone => True | PVAll => all_pairs small (rows_of ne ev gs) | PVConsecutive => neighbours small (rows_of ne ev gs) end) ->
  violation_constrs (pviol_of pol (proportions_bad ppf mp) ne ev) X.
Proof.
  intros * L Hm H1 H2 H3 H4 Hpos Hs. apply C14_only_violations_excluded with gs; try assumption.
  assert (G : forall r1 r2, In r1 (rows_of ne ev gs) -> In r2 (rows_of ne ev gs) ->
     (forall p, chi2_pvalue cdf (table2 r1 r2) = Ok p -> p <= mp) -> proportions_bad ppf mp r1 r2 = false).
  { rewrite Forall_forall in Hpos. intros r1 r2 I1 I2 H. apply (bad_iff _ _ L _ _ _ Hm). apply H.
    apply chi2_pvalue_z; apply Hpos; assumption. }
  clear Hpos. unfold pvalue_ok. cbv zeta in Hs. destruct pol; [exact I| |].
  - revert G. induction Hs as [|a l Ha Hl IH]; intros G; [constructor|]. constructor.
    + rewrite Forall_forall in *. intros b Hb. apply G; [now left|now right|now apply Ha].
    + apply IH. intros r1 r2 I1 I2. apply G; now right.
  - revert Hs G. induction (rows_of ne ev gs) as [|a l IH]; intros Hs G; [exact I|]. destruct l as [|b l]; [exact I|].
    destruct Hs as [Hs1 Hs2]. split; [apply G; cbn; auto|]. apply IH; [exact Hs2|]. intros r1 r2 I1 I2. apply G; now right.
Qed.
Print Assumptions C80_nothing_else_forbidden.

(** A continuous target: the Welch p-value of two consecutive displayed rows (their mean, standard deviation and size), when it
    is a number, is at most max_pvalue. *)
Theorem C80_continuous_pvalues : forall welch mp old solver sp fixed user splits0 rs f M yu g X pol,
  (forall r, In r rs -> (0 <= k_w r)%Z) -> pol <> PVNone ->
  fit_cont old solver sp fixed user splits0 rs = Some (Ok f) -> c_solved f solver M yu g X ->
  cg_pviol g = c_pviol pol (welch_bad welch mp) (map c_n (cp_stats (cf_prebins f))) (map c_sum (cp_stats (cf_prebins f))) (map c_ss (cp_stats (cf_prebins f))) ->
  (forall r, In r (c_clean_rows f) -> exists v, shown r v) /\
  (forall i a b v1 v2 p, nth_error (c_clean_rows f) i = Some a -> nth_error (c_clean_rows f) (S i) = Some b ->
     shown a v1 -> shown b v2 -> welch v1 v2 = Some p -> p <= mp).
Proof.
  intros * Hw Hpol Hf Hs Hg. pose proof (C28_pvalue_policy _ _ _ _ _ _ _ _ _ _ _ _ _ _ Hw Hf Hs Hg) as Hp.
  assert (HN : neighbours (fun r1 r2 => welch_bad welch mp (moments r1) (moments r2) = false) (c_clean_rows f)).
  { destruct pol; [congruence|apply all_pairs_neighbours; exact Hp|exact Hp]. }
  assert (SH : forall r, In r (c_clean_rows f) -> exists s ss, r_sum r = Some s /\ r_std r = ByMoments s ss (r_n r) /\ (0 < r_n r)%Z).
  { exact (c_rows_shape _ _ _ _ _ _ _ _ _ _ _ _ Hw Hf Hs). }
  assert (SV : forall r v, In r (c_clean_rows f) -> shown r v <-> v = (cand_mean (moments r), cand_std (moments r), cand_n (moments r))).
  { intros r v Hr. destruct (SH r Hr) as (s & ss & E1 & E2 & E3). unfold shown, ct_row_mean, moments, tab, cand_mean, cand_std, cand_n. rewrite E1, E2.
    apply Z.ltb_lt in E3. rewrite E3. cbn [option_map std_value fst snd]. destruct v as [[a b] c]. cbn [fst snd]. split.
    - intros (A & B & C). congruence.
    - intros E. injection E as -> -> ->. auto. }
  split.
  - intros r Hr. eexists. apply (SV r _ Hr). reflexivity.
  - intros i a b v1 v2 p Ha Hb S1 S2 Hv. apply SV in S1; [|eapply nth_error_In; eauto]. apply SV in S2; [|eapply nth_error_In; eauto].
    assert (Hi : (S i < length (c_clean_rows f))%nat) by (apply nth_error_Some; congruence).
    rewrite (neighbours_nth _ a) in HN. specialize (HN i Hi). rewrite (nth_error_nth _ _ a Ha), (nth_error_nth _ _ a Hb) in HN.
    unfold welch_bad in HN. rewrite <- S1, <- S2, Hv in HN. destruct (Rlt_dec mp p); [discriminate|lra].
Qed.
Print Assumptions C80_continuous_pvalues.

(** The Bayesian columns: whatever the shuffling, the same numbers between 0 and 1 (for distribution functions with values in
    [0, 1]), and P[A > B] + P[B > A] = 1. *)
Theorem C80_bayesian : forall fa qb r r', r <> [] -> Permutation r r' -> (forall x, 0 <= fa x <= 1) ->
  bayesian_probability fa qb r = bayesian_probability fa qb r' /\
  0 <= fst (bayesian_probability fa qb r) <= 1 /\ 0 <= snd (bayesian_probability fa qb r) <= 1 /\
  fst (bayesian_probability fa qb r) + snd (bayesian_probability fa qb r) = 1.
Proof.
  intros fa qb r r' Hn Hp Hf.
  assert (B : 0 <= fst (bayesian_probability fa qb r) <= 1).
  { unfold bayesian_probability. cbn [fst]. rewrite map_map.
    set (l := map _ r). replace (INR (length r)) with (INR (length l)) by (unfold l; now rewrite map_length).
    apply mean_bounds; [unfold l; destruct r; [congruence|discriminate]|]. intros x Hx. apply in_map_iff in Hx. destruct Hx as (k & <- & _). apply Hf. }
  split.
  - unfold bayesian_probability. rewrite <- (Permutation_length Hp).
    assert (E : fold_right Rplus 0 (map (fun x => fa (qb x)) (map (fun k => (INR k - 1 / 2) / INR (length r)) r)) =
                fold_right Rplus 0 (map (fun x => fa (qb x)) (map (fun k => (INR k - 1 / 2) / INR (length r)) r'))).
    { apply sum_perm. do 2 apply Permutation_map. exact Hp. }
    rewrite E. reflexivity.
  - split; [exact B|]. unfold bayesian_probability in *. cbn [fst snd] in *. split; lra.
Qed.
Print Assumptions C80_bayesian.

(** Refuted for pvalue_test = "fisher": whatever the law, there is a fit meeting a max_pvalue below 1 whose only pair of bins has
    Fisher p-value 1. *)
Definition fi_gs := [(0, 0); (1, 1)]%nat.
Definition fi_solver (a b : list Z) := solution_vector (length a) (Solved (mat_of fi_gs)).
Definition fi_g ppf mp := {| g_trend := TNone; g_min_bins := None; g_max_bins := None;
  g_min_size := None; g_max_size := None; g_min_ne := None; g_max_ne := None; g_min_e := None; g_max_e := None;
  g_md0 := false; g_fixed := None; g_pviol := pviol_of PVConsecutive (proportions_bad ppf mp) [2; 1]%Z [1; 1]%Z; g_dviol := [] |}.
Definition fi_mp (cdf : R -> R) : R := two_sided cdf (z_statistic (2, 1)%Z (1, 1)%Z).
Lemma fi_mp_range cdf ppf : normal_law cdf ppf -> 0 < fi_mp cdf < 1.
Proof.
  intros L. unfold fi_mp. pose proof (two_sided_range _ _ L (z_statistic (2, 1)%Z (1, 1)%Z)) as H. split; [tauto|].
  assert (Hz : z_statistic (2, 1)%Z (1, 1)%Z <> 0).
  { unfold z_statistic. cbn [fst snd]. intros E. apply Rmult_integral in E. destruct E as [E|E]; [lra|].
    revert E. apply Rinv_neq_0_compat. apply Rgt_not_eq. apply sqrt_lt_R0. lra. }
  unfold two_sided. apply Rabs_pos_lt in Hz. pose proof (nl_incr _ _ L _ _ Hz) as I. rewrite (cdf_0 _ _ L) in I. lra.
Qed.
Theorem C80_fisher_refuted : forall cdf ppf, normal_law cdf ppf -> exists mp f g X, 0 < mp < 1 /\
  fit_numerical 1 IV fi_solver SpNone None None [3%Z] (map XNum [1; 1; 1; 4; 4]%Z) [Y0; Y0; Y1; Y0; Y1] (repeat 1%Z 5) = Some (Ok f) /\
  solved f fi_solver 1000000 g X /\
  g_pviol g = pviol_of PVConsecutive (proportions_bad ppf mp) (pb_nev (f_prebins f)) (pb_ev (f_prebins f)) /\
  bt_pvalues (fun obs => Ok (fisher_pvalue obs)) 1 0 (f_nev f) (f_ev f) = Ok [1].
Proof.
  intros cdf ppf L. pose proof (fi_mp_range cdf ppf L) as Hm. exists (fi_mp cdf). eexists. exists (fi_g ppf (fi_mp cdf)), (mat_of fi_gs).
  split; [exact Hm|]. split; [vm_compute; reflexivity|]. split; [|split].
  - assert (Hp : partition 2 fi_gs) by repeat constructor.
    assert (B : proportions_bad ppf (fi_mp cdf) (2, 1)%Z (1, 1)%Z = false) by (apply (bad_iff _ _ L); [lra|apply Rle_refl]).
    split; [apply Nat.ltb_lt; vm_compute; reflexivity|]. split; [vm_compute; reflexivity|]. cbn [f_prebins pb_nev pb_ev].
    apply (feasible_complete [2; 1]%Z [1; 1]%Z fi_gs 1000000 (fi_g ppf (fi_mp cdf)) PVConsecutive (proportions_bad ppf (fi_mp cdf)) None (mat_of fi_gs));
      try reflexivity; try (cbn; lia); try exact Hp; try apply mat_of_represents; try (intros a; cbn; intuition lia).
    constructor; try exact I; try discriminate.
    + split; intros a E; discriminate.
    + repeat constructor; intros a E; discriminate.
    + repeat constructor; intros a E; discriminate.
    + repeat constructor; intros a E; discriminate.
    + split; [exact B|exact I].
  - reflexivity.
  - unfold bt_pvalues, bt_metric, bt_pair, bt_metric. cbn [f_nev f_ev length Nat.sub seq map collect skipn firstn]. f_equal. f_equal.
    unfold fisher_pvalue.
    match goal with |- (if ?b then _ else _) = _ => replace b with false by reflexivity end. cbv zeta.
    match goal with |- IZR ?a / IZR ?b = _ => replace a with 10%Z by reflexivity; replace b with 10%Z by reflexivity end. lra.
Qed.
Print Assumptions C80_fisher_refuted.

(** The hypotheses are met: a law, and the fit above with its chi-square p-value equal to max_pvalue. *)
Example C80_hyps_met : normal_law ex_cdf ex_ppf /\ 0 < fi_mp ex_cdf < 1 /\
  (0 < fst (2, 1))%Z /\ proportions_bad ex_ppf (fi_mp ex_cdf) (2, 1)%Z (1, 1)%Z = false /\
  proportions_bad ex_ppf (fi_mp ex_cdf / 2) (2, 1)%Z (1, 1)%Z = true.
Proof.
  pose proof ex_law as L. pose proof (fi_mp_range _ _ L) as H. split; [exact L|]. split; [exact H|]. split; [reflexivity|]. split.
  - apply (bad_iff _ _ L); [lra|apply Rle_refl].
  - destruct (proportions_bad ex_ppf (fi_mp ex_cdf / 2) (2, 1)%Z (1, 1)%Z) eqn:E; [reflexivity|]. apply (bad_iff _ _ L) in E; [|lra]. fold (fi_mp ex_cdf) in E. lra.
Qed.
Example C80_continuous_hyps_met : exists f X, fit_cont fresh all_true SpNone None None [4%Z] [kr 1 3 1; kr 5 7 1; kr 6 8 1] = Some (Ok f) /\
  c_solved f all_true 1000000 1 (no_req TAscending) X /\
  cg_pviol (no_req TAscending) = c_pviol PVConsecutive (welch_bad (fun a b => Some (1 / 100)) (5 / 100))
    (map c_n (cp_stats (cf_prebins f))) (map c_sum (cp_stats (cf_prebins f))) (map c_ss (cp_stats (cf_prebins f))) /\
  length (c_clean_rows f) = 2%nat.
Proof.
  destruct C28_hyps_met as (f & X & Hf & Hs & _). exists f, X. split; [exact Hf|]. split; [exact Hs|].
  vm_compute in Hf. injection Hf as <-. split; [|reflexivity]. cbn [no_req cg_pviol cf_prebins cp_stats map c_n c_sum c_ss].
  unfold c_pviol, viol_consecutive. cbn [length Nat.sub seq flat_map Nat.add]. unfold welch_bad.
  destruct (Rlt_dec (5 / 100) (1 / 100)); [lra|reflexivity].
Qed.
