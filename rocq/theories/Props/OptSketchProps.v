(** C54, C55: OptimalBinningSketch.solve on numerical data (sketch="gk"). *)
From Coq Require Import List ZArith Bool QArith Lia.
From Verif Require Import Model.Arr Model.Core Model.GK Model.BSketch Model.OptSketch Spec.CoreSpec Spec.GKSpec
  Spec.OptSketchSpec Proofs.ArrP Proofs.FitP Proofs.CoreP Proofs.GKFinal Proofs.BSketchP Proofs.OptSketchP Proofs.OptSketchFinal.
Import ListNotations.
Open Scope Z_scope.

(** C54. The rows of the binning table sum to the numbers of added events / non-events, missing and special
    records included, as long as prebinning keeps a split.
    Missing for the full claim: no split left (refuted below when records are missing or special), and quantile
    sketches that went through lossy merges (their weights may exceed the number of values, see C33). *)
Theorem C54_table_totals_partial : forall d solver m eps he hne me mne se sne f,
  (0 < eps)%Q -> lossless eps he -> lossless eps hne -> solver_ok solver ->
  sk_solve d solver m (sketch_of eps he hne me mne se sne) = Ok f -> sf_prebins f <> [] ->
  zsum (sf_ev f) = nvals he + me + se /\ zsum (sf_nev f) = nvals hne + mne + sne.
Proof.
  intros d solver m e he hne me mne se sne f He L1 L2 So E Ne.
  destruct (sk_solve_spec _ _ _ _ _ _ _ _ _ _ _ So E Ne) as (sol & rn & re_ & N & L & La & M1 & M2 & S1 & T1 & T2).
  rewrite T1, T2, !zsum_app. cbn [zsum].
  assert (Q1 : zsum rn = nvals hne).
  { rewrite (rows_total _ _ _ ltac:(rewrite gk_bins_length; exact L) La M1). now rewrite bins_total. }
  assert (Q2 : zsum re_ = nvals he).
  { rewrite (rows_total _ _ _ ltac:(rewrite gk_bins_length; exact L) La M2). now rewrite bins_total. }
  lia.
Qed.
Print Assumptions C54_table_totals_partial.

Definition adds (l : list Z) : hist := fold_left HAdd l HNew.
Definition keep_all (a b : list Z) : list bool := map (fun _ => true) a.
Lemma keep_all_ok : solver_ok keep_all.
Proof.
  intros a b _ L. unfold keep_all. split; [apply map_length|]. clear b. induction a as [|x a IH]; [cbn in L; lia|].
  destruct a as [|y a]; [reflexivity|]. destruct a as [|z a]; [reflexivity|]. apply IH. cbn [length]. lia.
Qed.
Example C54_hyps_met : exists f, lossless (1#100) (adds [1;2;3;4;9;10;12]) /\ lossless (1#100) (adds [1;2;3;4;5;6;11;12]) /\
  sk_solve IV keep_all 4 (sketch_of (1#100) (adds [1;2;3;4;9;10;12]) (adds [1;2;3;4;5;6;11;12]) 1 2 3 4) = Ok f /\
  sf_prebins f = [2; 4; 9] /\ sf_ev f = [2; 2; 1; 2; 3; 1].
Proof. eexists. split; [cbn; tauto|]. split; [cbn; tauto|]. split; [vm_compute; reflexivity|]. split; reflexivity. Qed.

(** With no split left, missing and special records are counted twice (binning_sketch.py:614-616 uses totals which
    already include them). *)
Theorem C54_single_bin_counts_twice_refuted : forall d solver m eps he hne me mne se sne f,
  sk_solve d solver m (sketch_of eps he hne me mne se sne) = Ok f -> sf_prebins f = [] ->
  sf_ev f = [nvals he + me + se; se; me] /\ sf_nev f = [nvals hne + mne + sne; sne; mne].
Proof.
  intros d solver m e he hne me mne se sne f E P. unfold sk_solve in E.
  destruct (merge_sketches _) as [[g b]|] eqn:Em; [|discriminate]. cbn [rbind fst snd] in E.
  apply merge_sketches_spec in Em. destruct Em as [-> ->].
  destruct (quantiles _ (percentiles m)) as [[ss g']|]; [|discriminate]. cbn [rbind fst snd] in E.
  destruct (sk_prebins _ _ _ _) as [[[[splits nev] ev_]|]|] eqn:Ep; try discriminate. cbn [rbind fst snd] in E.
  assert (splits = []).
  { unfold sk_finish in E. cbv zeta in E.
    destruct (bin_info_1 _ _ _ _ _ _); [|discriminate]. destruct (bin_info_1 _ _ _ _ _ _); [|discriminate]. now injection E as <-. }
  subst splits. unfold sk_finish in E. cbv zeta in E. cbn [length repeat] in E.
  assert (Ln : length nev = 1%nat).
  { revert Ep. generalize (S (length ss)) as fuel. intros fuel. generalize ss as s0. induction fuel as [|fu IH]; intros s0 Ep; [discriminate|].
    cbn [sk_prebins] in Ep. destruct (any _ && refines d) eqn:A.
    - destruct s0 as [|a r]; [discriminate|]. exact (IH _ Ep).
    - injection Ep as -> <- _. apply gk_bins_length. }
  rewrite Ln in E. cbn [Nat.leb bin_info_1 option_map app map] in E. injection E as <-.
  cbn [sf_ev sf_nev]. unfold bd_n_event, bd_n_nonevent, sketch_of. cbn [bd_e bd_ne bd_me bd_mne bd_se bd_sne].
  assert (G : forall h, gcount (build e h) = nvals h).
  { intros h. apply (GKI.ba_count _ _ _ (GKI.wi_base _ _ _ (GKI.build_winv e h))). }
  rewrite !G. unfold trunc. rewrite !Z.quot_1_r.
  change (nvals (HMerged he HNew)) with (nvals he). change (nvals (HMerged hne (HMerge HNew he))) with (nvals hne). split; reflexivity.
Qed.
Print Assumptions C54_single_bin_counts_twice_refuted.
Example C54_single_bin_counts_twice_met : exists f,
  sk_solve IV keep_all 2 (sketch_of (1#100) (adds [1;2]) (adds [3;4]) 1 2 3 4) = Ok f /\ sf_prebins f = [] /\
  zsum (sf_ev f) = 10 /\ nvals (adds [1;2]) + 1 + 3 = 6.
Proof. eexists. split; [vm_compute; reflexivity|]. repeat split. Qed.

(** C55. Up to each optimal split, the cumulated rows of the table are within max(1, floor(2 eps (n - 1))) - 1 of the
    number of added values up to the split (never above it); the rows are the bins, special, missing. *)
Theorem C55_cumulated_counts_accurate : forall d solver m eps he hne me mne se sne f,
  (0 < eps)%Q -> lossless eps he -> lossless eps hne -> solver_ok solver ->
  sk_solve d solver m (sketch_of eps he hne me mne se sne) = Ok f -> sf_prebins f <> [] ->
  length (sf_ev f) = (length (sf_splits f) + 3)%nat /\ length (sf_nev f) = (length (sf_splits f) + 3)%nat /\
  nondecreasing (sf_splits f) /\
  forall k x, nth_error (sf_splits f) k = Some x ->
    upto x (values he) - slack eps (nvals he) <= zsum (firstn (S k) (sf_ev f)) <= upto x (values he) /\
    upto x (values hne) - slack eps (nvals hne) <= zsum (firstn (S k) (sf_nev f)) <= upto x (values hne).
Proof.
  intros d solver m e he hne me mne se sne f He L1 L2 So E Ne.
  destruct (sk_solve_spec _ _ _ _ _ _ _ _ _ _ _ So E Ne) as (sol & rn & re_ & N & L & La & M1 & M2 & S1 & T1 & T2).
  pose proof (count_true_sel sol (sf_prebins f) L La) as C.
  destruct (merge_loop_spec 0 sol (gk_bins (sf_prebins f) (build e (HMerged hne (HMerge HNew he))))) as (r1 & E1 & K1 & _);
    [rewrite gk_bins_length; exact L|].
  destruct (merge_loop_spec 0 sol (gk_bins (sf_prebins f) (build e (HMerged he HNew)))) as (r2 & E2 & K2 & _);
    [rewrite gk_bins_length; exact L|].
  rewrite E1 in M1. injection M1 as ->. rewrite E2 in M2. injection M2 as ->.
  rewrite T1, T2, S1, !app_length. cbn [length]. split; [lia|]. split; [lia|]. split; [now apply select_nondecr|].
  intros k x Ex. assert (Lk : (k < length (select (init sol) (sf_prebins f)))%nat) by (apply nth_error_Some; congruence).
  rewrite !firstn_prefix by lia. split.
  - exact (rows_cum e (HMerged he HNew) _ sol _ He L1 N L La E2 k x Ex).
  - exact (rows_cum e (HMerged hne (HMerge HNew he)) _ sol _ He L2 N L La E1 k x Ex).
Qed.
Print Assumptions C55_cumulated_counts_accurate.

(** When the sketches are exact (2 eps (n - 1) < 2), row k counts exactly the values in bin k, where a value equal to
    a split is counted below it. *)
Theorem C55_rows_exact_right_closed : forall d solver m eps he hne me mne se sne f,
  (0 < eps)%Q -> lossless eps he -> lossless eps hne -> solver_ok solver ->
  slack eps (nvals he) = 0 -> slack eps (nvals hne) = 0 ->
  sk_solve d solver m (sketch_of eps he hne me mne se sne) = Ok f -> sf_prebins f <> [] ->
  forall k, (k <= length (sf_splits f))%nat ->
    let bin v := length (filter (fun s => Z.ltb s v) (sf_splits f)) in
    nth_error (sf_ev f) k = Some (Z.of_nat (length (filter (fun v => Nat.eqb (bin v) k) (values he)))) /\
    nth_error (sf_nev f) k = Some (Z.of_nat (length (filter (fun v => Nat.eqb (bin v) k) (values hne)))).
Proof.
  intros d solver m e he hne me mne se sne f He L1 L2 So Z1 Z2 E Ne k Lk.
  destruct (sk_solve_spec _ _ _ _ _ _ _ _ _ _ _ So E Ne) as (sol & rn & re_ & N & L & La & M1 & M2 & S1 & T1 & T2).
  pose proof (count_true_sel sol (sf_prebins f) L La) as C. rewrite <- S1 in C.
  destruct (merge_loop_spec 0 sol (gk_bins (sf_prebins f) (build e (HMerged hne (HMerge HNew he))))) as (r1 & E1 & K1 & _);
    [rewrite gk_bins_length; exact L|].
  destruct (merge_loop_spec 0 sol (gk_bins (sf_prebins f) (build e (HMerged he HNew)))) as (r2 & E2 & K2 & _);
    [rewrite gk_bins_length; exact L|].
  rewrite E1 in M1. injection M1 as ->. rewrite E2 in M2. injection M2 as ->.
  assert (Nd : nondecreasing (sf_splits f)) by (rewrite S1; now apply select_nondecr).
  cbv zeta. rewrite T1, T2. rewrite !nth_error_app1 by lia. split.
  - apply (rows_exact (sf_splits f) (values he)); try assumption; [lia| |].
    + rewrite (rows_total _ _ _ ltac:(rewrite gk_bins_length; exact L) La E2). rewrite bins_total by assumption. reflexivity.
    + intros j x Ex. rewrite S1 in Ex. pose proof (rows_cum e (HMerged he HNew) _ sol _ He L1 N L La E2 j x Ex) as A.
      change (nvals (HMerged he HNew)) with (nvals he) in A. change (values (HMerged he HNew)) with (values he) in A. lia.
  - apply (rows_exact (sf_splits f) (values hne)); try assumption; [lia| |].
    + rewrite (rows_total _ _ _ ltac:(rewrite gk_bins_length; exact L) La E1). rewrite bins_total by assumption. reflexivity.
    + intros j x Ex. rewrite S1 in Ex. pose proof (rows_cum e (HMerged hne (HMerge HNew he)) _ sol _ He L2 N L La E1 j x Ex) as A.
      change (nvals (HMerged hne (HMerge HNew he))) with (nvals hne) in A.
      change (values (HMerged hne (HMerge HNew he))) with (values hne) in A. lia.
Qed.
Print Assumptions C55_rows_exact_right_closed.

(** Hence the table agrees with [transform] (bins closed on the left) when no added value is a split point. *)
Theorem C55_transform_agrees_partial : forall d solver m eps he hne me mne se sne f,
  (0 < eps)%Q -> lossless eps he -> lossless eps hne -> solver_ok solver ->
  slack eps (nvals he) = 0 -> slack eps (nvals hne) = 0 ->
  sk_solve d solver m (sketch_of eps he hne me mne se sne) = Ok f -> sf_prebins f <> [] ->
  (forall v, In v (values he ++ values hne) -> ~ In v (sf_splits f)) ->
  forall k, (k <= length (sf_splits f))%nat ->
    nth_error (sf_ev f) k = Some (Z.of_nat (length (filter (fun v => Nat.eqb (digitize (sf_splits f) v) k) (values he)))) /\
    nth_error (sf_nev f) k = Some (Z.of_nat (length (filter (fun v => Nat.eqb (digitize (sf_splits f) v) k) (values hne)))).
Proof.
  intros d solver m e he hne me mne se sne f He L1 L2 So Z1 Z2 E Ne T k Lk.
  destruct (C55_cumulated_counts_accurate d solver m e he hne me mne se sne f He L1 L2 So E Ne) as (_ & _ & Nd & _).
  destruct (C55_rows_exact_right_closed d solver m e he hne me mne se sne f He L1 L2 So Z1 Z2 E Ne k Lk) as [A B].
  cbv zeta in A, B. rewrite A, B.
  split; do 3 f_equal; apply filter_ext_in; intros v Iv;
    rewrite <- (ss_left_digitize (sf_splits f) v Nd (T v ltac:(apply in_or_app; tauto))); reflexivity.
Qed.
Print Assumptions C55_transform_agrees_partial.

(** In general it does not: splits are quantiles, i.e. added values, and such a value is counted in the bin below the one
    [transform] assigns to it. *)
Theorem C55_transform_disagrees_refuted : exists d solver m eps he hne f,
  (0 < eps)%Q /\ lossless eps he /\ lossless eps hne /\ solver_ok solver /\ slack eps (nvals he) = 0 /\
  slack eps (nvals hne) = 0 /\ sk_solve d solver m (sketch_of eps he hne 0 0 0 0) = Ok f /\ sf_prebins f <> [] /\
  nth_error (sf_ev f) 0 = Some 2 /\
  length (filter (fun v => Nat.eqb (digitize (sf_splits f) v) 0) (values he)) = 1%nat.
Proof.
  exists IV, keep_all, 2%nat, (1#100), (adds [1;2;3;4]), (adds [1;2;3;4]). eexists.
  split; [reflexivity|]. split; [cbn; tauto|]. split; [cbn; tauto|]. split; [apply keep_all_ok|].
  split; [reflexivity|]. split; [reflexivity|]. split; [vm_compute; reflexivity|]. split; [discriminate|]. split; reflexivity.
Qed.
Print Assumptions C55_transform_disagrees_refuted.

Example C55_hyps_met : exists f,
  sk_solve IV keep_all 4 (sketch_of (1#100) (HMerge (adds [1;2;3]) (adds [4;9;10;12])) (adds [1;2;3;4;5;6;11;12]) 1 2 3 4) = Ok f /\
  lossless (1#100) (HMerge (adds [1;2;3]) (adds [4;9;10;12])) /\
  slack (1#100) 8 = 0 /\ sf_splits f = [2; 4; 9].
Proof.
  eexists. split; [vm_compute; reflexivity|]. split; [|split; reflexivity].
  cbn [lossless]. split; [cbn; tauto|]. split; [cbn; tauto|]. right. reflexivity.
Qed.
(** Agreement with [transform] does happen: the solver merges the bins around the splits which are values. *)
Definition keep_none (a b : list Z) : list bool := repeat false (length a - 1) ++ [true].
Example C55_agrees_hyps_met : solver_ok keep_none /\ exists f,
  sk_solve IV keep_none 4 (sketch_of (1#100) (adds [1;2;3;4]) (adds [1;2;3;4]) 0 0 0 0) = Ok f /\
  sf_prebins f <> [] /\ (forall v, In v (values (adds [1;2;3;4]) ++ values (adds [1;2;3;4])) -> ~ In v (sf_splits f)).
Proof.
  split.
  - intros a b _ L. unfold keep_none. split; [rewrite app_length, repeat_length; cbn; lia|]. apply last_last.
  - eexists. split; [vm_compute; reflexivity|]. split; [discriminate|]. cbn. tauto.
Qed.
