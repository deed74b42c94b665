(** Constraint model of the continuous target: meaning of the constraints on partitions. *)
From Coq Require Import List ZArith Bool Arith Lia QArith Qabs Sorting.
From Verif Require Import Model.Arr Model.Core Model.CP Model.Cont Spec.CoreSpec Spec.CPSpec Spec.CPFitSpec Spec.ContSpec
  Proofs.ArrP Proofs.CoreP Proofs.FitP Proofs.CoreFinal Proofs.CPP Proofs.CPC Proofs.CPTable Proofs.CPFinal Proofs.ContP.
Import ListNotations.
Open Scope Z_scope.

Section CConstr.
Variables (n : nat) (gs : list group) (X U : mat).
Hypothesis Hn : (0 < n)%nat.
Hypothesis Hp : partition n gs.
Hypothesis Hr : describes n gs X.

Lemma c_lt s e : In (s, e) gs -> (s <= e /\ e < n)%nat.
Proof. intros H. pose proof (chain_in _ _ _ _ _ Hp H). lia. Qed.
Lemma c_diag i : (i < n)%nat -> X i i = 1 -> exists s, In (s, i) gs.
Proof. intros Hi H. apply (diag_end n gs X Hp Hr i Hi). exact H. Qed.

Lemma c_asc_iff i z : (i < n)%nat -> (z < n)%nat ->
  c_asc U X i z <-> (forall s s', In (s, z) gs -> In (s', i) gs -> U z s <= U i s').
Proof.
  intros Hi Hz. unfold c_asc. split.
  - intros H s s' H1 H2. specialize (H (diag1 n gs X Hp Hr s z H1) (diag1 n gs X Hp Hr s' i H2)).
    pose proof (row_rate_end n gs X Hp Hr U s z H1) as E1. pose proof (row_rate_end n gs X Hp Hr U s' i H2) as E2.
    unfold row_rate in E1, E2. lia.
  - intros H D1 D2. destruct (c_diag z Hz D1) as [s H1]. destruct (c_diag i Hi D2) as [s' H2].
    specialize (H s s' H1 H2).
    pose proof (row_rate_end n gs X Hp Hr U s z H1) as E1. pose proof (row_rate_end n gs X Hp Hr U s' i H2) as E2.
    unfold row_rate in E1, E2. lia.
Qed.
Lemma c_desc_iff i z : (i < n)%nat -> (z < n)%nat ->
  c_desc U X i z <-> (forall s s', In (s, z) gs -> In (s', i) gs -> U i s' <= U z s).
Proof.
  intros Hi Hz. unfold c_desc. split.
  - intros H s s' H1 H2. specialize (H (diag1 n gs X Hp Hr s z H1) (diag1 n gs X Hp Hr s' i H2)).
    pose proof (row_rate_end n gs X Hp Hr U s z H1) as E1. pose proof (row_rate_end n gs X Hp Hr U s' i H2) as E2.
    unfold row_rate in E1, E2. lia.
  - intros H D1 D2. destruct (c_diag z Hz D1) as [s H1]. destruct (c_diag i Hi D2) as [s' H2].
    specialize (H s s' H1 H2).
    pose proof (row_rate_end n gs X Hp Hr U s z H1) as E1. pose proof (row_rate_end n gs X Hp Hr U s' i H2) as E2.
    unfold row_rate in E1, E2. lia.
Qed.
Lemma c_asc_range lo hi : (hi <= n)%nat ->
  (forall i z, (lo <= z)%nat -> (z < i)%nat -> (i < hi)%nat -> c_asc U X i z) <-> range_asc gs U lo hi.
Proof.
  intros Hh. split.
  - intros H s1 e1 s2 e2 I1 I2 H1 H2 H3. specialize (H e2 e1 H1 H2 H3). rewrite c_asc_iff in H by lia. auto.
  - intros H i z Hlo Hzi Hi. rewrite c_asc_iff by lia. intros s s' Ha Hb. eapply H; eauto.
Qed.
Lemma c_desc_range lo hi : (hi <= n)%nat ->
  (forall i z, (lo <= z)%nat -> (z < i)%nat -> (i < hi)%nat -> c_desc U X i z) <-> range_desc gs U lo hi.
Proof.
  intros Hh. split.
  - intros H s1 e1 s2 e2 I1 I2 H1 H2 H3. specialize (H e2 e1 H1 H2 H3). rewrite c_desc_iff in H by lia. auto.
  - intros H i z Hlo Hzi Hi. rewrite c_desc_iff by lia. intros s s' Ha Hb. eapply H; eauto.
Qed.
Lemma c_ascending_iff : c_ascending n U X <-> all_pairs (g_le U) gs.
Proof.
  rewrite (pairs_asc n gs Hn Hp), <- c_asc_range by lia. unfold c_ascending. split; intros H; intros; apply H; lia.
Qed.
Lemma c_descending_iff : c_descending n U X <-> all_pairs (g_ge U) gs.
Proof.
  rewrite (pairs_desc n gs Hn Hp), <- c_desc_range by lia. unfold c_descending. split; intros H; intros; apply H; lia.
Qed.
Lemma c_peak_sound : (exists y t, change_point n y t /\ c_peak n U y X) -> up_down (g_le U) gs.
Proof.
  intros (y & t & Hc & H). destruct (change_point_cut n Hn y t Hc) as (c & Hcn & Y1 & Y0).
  apply (range_cut_up_down n gs Hn Hp U c).
  - apply c_asc_range; [lia|]. intros i z _ Hzi Hi D1 D2. destruct (H i z ltac:(lia) ltac:(lia) D1 D2) as [_ H2].
    rewrite (Y1 i), (Y1 z) in H2 by lia. lia.
  - apply c_desc_range; [lia|]. intros i z Hc1 Hzi Hi D1 D2. destruct (H i z ltac:(lia) ltac:(lia) D1 D2) as [H1 _].
    rewrite (Y0 i), (Y0 z) in H1 by lia. lia.
Qed.
Lemma c_valley_sound : (exists y t, change_point n y t /\ c_valley n U y X) -> up_down (g_ge U) gs.
Proof.
  intros (y & t & Hc & H). destruct (change_point_cut n Hn y t Hc) as (c & Hcn & Y1 & Y0).
  apply (range_cut_down_up n gs Hn Hp U c).
  - apply c_desc_range; [lia|]. intros i z _ Hzi Hi D1 D2. destruct (H i z ltac:(lia) ltac:(lia) D1 D2) as [_ H2].
    rewrite (Y1 i), (Y1 z) in H2 by lia. lia.
  - apply c_asc_range; [lia|]. intros i z Hc1 Hzi Hi D1 D2. destruct (H i z ltac:(lia) ltac:(lia) D1 D2) as [H1 _].
    rewrite (Y0 i), (Y0 z) in H1 by lia. lia.
Qed.
Lemma max_abs_ge i j : (i < n)%nat -> (j <= i)%nat -> Z.abs (U i j) <= max_abs n U.
Proof.
  intros Hi Hj. unfold max_abs.
  assert (In (Z.abs (U i j)) (flat_map (fun i => map (fun j => Z.abs (U i j)) (seq 0 (S i))) (seq 0 n))).
  { apply in_flat_map. exists i. split; [apply in_seq; lia|]. apply in_map_iff. exists j. split; [reflexivity|]. apply in_seq. lia. }
  revert H. generalize (flat_map (fun i => map (fun j => Z.abs (U i j)) (seq 0 (S i))) (seq 0 n)). generalize (Z.abs (U i j)).
  clear. intros a l. induction l as [|b l IH]; intros H; [destruct H|]. cbn [fold_right]. destruct H as [E|H]; [lia|]. specialize (IH H). lia.
Qed.
(** same sign: the big-M of the code is large enough *)
Definition same_sign : Prop := (forall i j, (i < n)%nat -> (j <= i)%nat -> 0 <= U i j) \/ (forall i j, (i < n)%nat -> (j <= i)%nat -> U i j <= 0).
Lemma same_sign_diff i j i' j' : same_sign -> (i < n)%nat -> (j <= i)%nat -> (i' < n)%nat -> (j' <= i')%nat ->
  U i j - U i' j' <= max_abs n U.
Proof.
  intros [H|H] H1 H2 H3 H4; pose proof (H i j H1 H2); pose proof (H i' j' H3 H4);
    pose proof (max_abs_ge i j H1 H2); pose proof (max_abs_ge i' j' H3 H4); lia.
Qed.
Lemma c_peak_complete : same_sign -> up_down (g_le U) gs -> exists y t, change_point n y t /\ c_peak n U y X.
Proof.
  intros Hs H. destruct (up_down_range_cut n gs Hn Hp U H) as (c & Hcn & Ha & Hd).
  exists (cut_y c), (Z.of_nat c). split; [now apply cut_change_point|].
  unfold c_peak. intros i z Hi Hz D1 D2. destruct (c_diag z ltac:(lia) D1) as [s H1]. destruct (c_diag i ltac:(lia) D2) as [s' H2].
  pose proof (row_rate_end n gs X Hp Hr U s z H1) as E1. pose proof (row_rate_end n gs X Hp Hr U s' i H2) as E2. unfold row_rate in E1, E2.
  pose proof (c_lt _ _ H1). pose proof (c_lt _ _ H2).
  pose proof (same_sign_diff i s' z s Hs ltac:(lia) ltac:(lia) ltac:(lia) ltac:(lia)).
  pose proof (same_sign_diff z s i s' Hs ltac:(lia) ltac:(lia) ltac:(lia) ltac:(lia)).
  unfold cut_y. destruct (Nat.ltb_spec i c) as [Hic|Hic]; destruct (Nat.ltb_spec z c) as [Hzc|Hzc]; try lia.
  - assert (U z s <= U i s') by (eapply Ha; eauto; lia). split; lia.
  - assert (U i s' <= U z s) by (eapply Hd; eauto; lia). split; lia.
Qed.
Lemma c_valley_complete : same_sign -> up_down (g_ge U) gs -> exists y t, change_point n y t /\ c_valley n U y X.
Proof.
  intros Hs H. destruct (down_up_range_cut n gs Hn Hp U H) as (c & Hcn & Ha & Hd).
  exists (cut_y c), (Z.of_nat c). split; [now apply cut_change_point|].
  unfold c_valley. intros i z Hi Hz D1 D2. destruct (c_diag z ltac:(lia) D1) as [s H1]. destruct (c_diag i ltac:(lia) D2) as [s' H2].
  pose proof (row_rate_end n gs X Hp Hr U s z H1) as E1. pose proof (row_rate_end n gs X Hp Hr U s' i H2) as E2. unfold row_rate in E1, E2.
  pose proof (c_lt _ _ H1). pose proof (c_lt _ _ H2).
  pose proof (same_sign_diff i s' z s Hs ltac:(lia) ltac:(lia) ltac:(lia) ltac:(lia)).
  pose proof (same_sign_diff z s i s' Hs ltac:(lia) ltac:(lia) ltac:(lia) ltac:(lia)).
  unfold cut_y. destruct (Nat.ltb_spec i c) as [Hic|Hic]; destruct (Nat.ltb_spec z c) as [Hzc|Hzc]; try lia.
  - assert (U i s' <= U z s) by (eapply Ha; eauto; lia). split; lia.
  - assert (U z s <= U i s') by (eapply Hd; eauto; lia). split; lia.
Qed.
Lemma c_peak_heur_sound tc : (tc <= n)%nat -> c_peak_heuristic n tc U X -> up_down (g_le U) gs.
Proof.
  intros Ht [H1 H2]. apply (range_cut_up_down n gs Hn Hp U tc).
  - apply c_asc_range; [lia|]. intros; apply H1; lia.
  - apply c_desc_range; [lia|]. intros; apply H2; lia.
Qed.
Lemma c_valley_heur_sound tc : (tc <= n)%nat -> c_valley_heuristic n tc U X -> up_down (g_ge U) gs.
Proof.
  intros Ht [H1 H2]. apply (range_cut_down_up n gs Hn Hp U tc).
  - apply c_desc_range; [lia|]. intros; apply H1; lia.
  - apply c_asc_range; [lia|]. intros; apply H2; lia.
Qed.
Lemma c_concave_sound : c_concave n U X ->
  all_triples (fun a b c => at_group U a + at_group U c <= 2 * at_group U b) gs.
Proof.
  intros H. apply (triples_all 0 n gs _ Hp). intros s1 e1 s2 e2 s3 e3 I1 I2 I3 L1 L2.
  pose proof (c_lt _ _ I1). pose proof (c_lt _ _ I2). pose proof (c_lt _ _ I3).
  specialize (H e3 e2 e1 ltac:(lia) ltac:(lia) ltac:(lia) (diag1 n gs X Hp Hr _ _ I1) (diag1 n gs X Hp Hr _ _ I2) (diag1 n gs X Hp Hr _ _ I3)).
  rewrite (row_rate_end n gs X Hp Hr U _ _ I1), (row_rate_end n gs X Hp Hr U _ _ I2), (row_rate_end n gs X Hp Hr U _ _ I3) in H.
  unfold at_group. cbn [fst snd]. lia.
Qed.
Lemma c_convex_sound : c_convex n U X ->
  all_triples (fun a b c => 2 * at_group U b <= at_group U a + at_group U c) gs.
Proof.
  intros H. apply (triples_all 0 n gs _ Hp). intros s1 e1 s2 e2 s3 e3 I1 I2 I3 L1 L2.
  pose proof (c_lt _ _ I1). pose proof (c_lt _ _ I2). pose proof (c_lt _ _ I3).
  specialize (H e3 e2 e1 ltac:(lia) ltac:(lia) ltac:(lia) (diag1 n gs X Hp Hr _ _ I1) (diag1 n gs X Hp Hr _ _ I2) (diag1 n gs X Hp Hr _ _ I3)).
  rewrite (row_rate_end n gs X Hp Hr U _ _ I1), (row_rate_end n gs X Hp Hr U _ _ I2), (row_rate_end n gs X Hp Hr U _ _ I3) in H.
  unfold at_group. cbn [fst snd]. lia.
Qed.
End CConstr.

(** * Truncated scaled means *)
Lemma quot_bounds a b : 0 < b -> (Z.quot a b - 1) * b < a < (Z.quot a b + 1) * b.
Proof.
  intros Hb. pose proof (Z.quot_rem' a b) as E.
  assert (- b < Z.rem a b < b).
  { destruct (Z.le_gt_cases 0 a).
    - pose proof (Z.rem_bound_pos a b H Hb). lia.
    - pose proof (Z.rem_bound_pos_neg a b Hb ltac:(lia)). lia. }
  nia.
Qed.
Lemma Qpos_inj z : 0 < z -> (0 < inject_Z z)%Q.
Proof. intros H. change 0%Q with (inject_Z 0). now rewrite <- Zlt_Qlt. Qed.
Lemma Qne_inj z : 0 < z -> ~ (inject_Z z == 0)%Q.
Proof. intros H E. apply Qpos_inj in H. rewrite E in H. now apply (Qlt_irrefl 0%Q). Qed.

Section Means.
Variables (M yu : Z).
Hypothesis HM : 0 < M.
Hypothesis Hy : 0 < yu.
(** scaled mean of a row (records, sum) *)
Definition smean (r : Z * Z) : Z := Z.quot (M * snd r) (yu * fst r).

(** (q - 1)/M < mean < (q + 1)/M *)
Lemma smean_bounds r : 0 < fst r ->
  (inject_Z (smean r - 1) / inject_Z M < gmean yu r /\ gmean yu r < inject_Z (smean r + 1) / inject_Z M)%Q.
Proof.
  intros Hr. unfold gmean. rewrite <- inject_Z_mult. pose proof (quot_bounds (M * snd r) (yu * fst r) ltac:(nia)) as [H1 H2].
  fold (smean r) in H1, H2. split; apply Q_lt_div; try nia.
Qed.
Lemma smean_le r1 r2 : 0 < fst r1 -> 0 < fst r2 -> smean r1 <= smean r2 ->
  (gmean yu r1 < gmean yu r2 + 2 / inject_Z M)%Q.
Proof.
  intros H1 H2 H. pose proof (smean_bounds r1 H1) as [_ A]. pose proof (smean_bounds r2 H2) as [B _].
  eapply Qlt_le_trans; [exact A|].
  apply Qle_trans with (inject_Z (smean r2 - 1) / inject_Z M + 2 / inject_Z M)%Q.
  - change 2%Q with (inject_Z 2). unfold Qdiv. rewrite <- Qmult_plus_distr_l, <- inject_Z_plus.
    apply Qmult_le_compat_r; [rewrite <- Zle_Qle; lia|]. apply Qlt_le_weak, Qinv_lt_0_compat, Qpos_inj, HM.
  - apply Qplus_le_l. now apply Qlt_le_weak.
Qed.
Lemma smean_mono r1 r2 : 0 < fst r1 -> 0 < fst r2 -> (gmean yu r1 <= gmean yu r2)%Q -> smean r1 <= smean r2.
Proof.
  intros H1 H2 H. unfold gmean in H. rewrite <- !inject_Z_mult in H.
  apply Q_le_cross in H; [|nia|nia]. unfold smean.
  assert (H' : M * snd r1 * (yu * fst r2) <= M * snd r2 * (yu * fst r1)) by nia.
  revert H'. generalize (M * snd r1) (M * snd r2). intros a c H'.
  assert (B : 0 < yu * fst r1) by nia. assert (D : 0 < yu * fst r2) by nia. revert B D H'.
  generalize (yu * fst r1) (yu * fst r2). intros b d B D H'.
  destruct (Z.le_gt_cases (Z.quot a b) (Z.quot c d)) as [|Hgt]; [assumption|exfalso].
  pose proof (Z.quot_rem' a b) as E1. pose proof (Z.quot_rem' c d) as E2.
  revert E1 E2 Hgt. set (q1 := Z.quot a b). set (q2 := Z.quot c d). intros E1 E2 Hgt.
  destruct (Z.le_gt_cases 0 a) as [Ha|Ha]; destruct (Z.le_gt_cases 0 c) as [Hc|Hc].
  - pose proof (Z.rem_bound_pos a b Ha B). pose proof (Z.rem_bound_pos c d Hc D).
    assert (A1 : b * (q2 + 1) <= a) by nia. assert (A2 : c < d * (q2 + 1)) by nia.
    assert (b * (q2 + 1) * d <= a * d) by nia. assert (c * b < d * (q2 + 1) * b) by nia. nia.
  - nia.
  - pose proof (Z.rem_bound_pos_neg a b B ltac:(lia)). pose proof (Z.rem_bound_pos c d Hc D).
    assert (q1 <= 0) by nia. assert (0 <= q2) by nia. lia.
  - pose proof (Z.rem_bound_pos_neg a b B ltac:(lia)). pose proof (Z.rem_bound_pos_neg c d D ltac:(lia)).
    assert (A1 : b * (q1 - 1) < a) by nia. assert (A2 : c <= d * (q1 - 1)) by nia.
    assert (b * (q1 - 1) * d < a * d) by nia. assert (c * b <= d * (q1 - 1) * b) by nia. nia.
Qed.
Lemma smean_triple r1 r2 r3 k : 0 < fst r1 -> 0 < fst r2 -> 0 < fst r3 -> (smean r1 + smean r3 <= 2 * smean r2 + k) ->
  (gmean yu r1 + gmean yu r3 < 2 * gmean yu r2 + inject_Z (4 + k) / inject_Z M)%Q.
Proof.
  intros H1 H2 H3 H. pose proof (smean_bounds r1 H1) as [_ A]. pose proof (smean_bounds r2 H2) as [B _]. pose proof (smean_bounds r3 H3) as [_ C].
  apply Qlt_trans with (inject_Z (smean r1 + 1) / inject_Z M + inject_Z (smean r3 + 1) / inject_Z M)%Q; [now apply Qplus_lt_le_compat; [|apply Qlt_le_weak]|].
  apply Qle_lt_trans with (2 * (inject_Z (smean r2 - 1) / inject_Z M) + inject_Z (4 + k) / inject_Z M)%Q.
  - assert (E : (2 * (inject_Z (smean r2 - 1) / inject_Z M) + inject_Z (4 + k) / inject_Z M == inject_Z (2 * (smean r2 - 1) + (4 + k)) / inject_Z M)%Q).
    { rewrite (inject_Z_plus (2 * (smean r2 - 1))), (inject_Z_mult 2). unfold Qdiv. change 2%Q with (inject_Z 2). ring. }
    rewrite E. unfold Qdiv. rewrite <- Qmult_plus_distr_l, <- inject_Z_plus.
    apply Qmult_le_compat_r; [rewrite <- Zle_Qle; lia|]. apply Qlt_le_weak, Qinv_lt_0_compat, Qpos_inj, HM.
  - apply Qplus_lt_l. setoid_replace (2 * (inject_Z (smean r2 - 1) / inject_Z M))%Q with (inject_Z (smean r2 - 1) / inject_Z M * 2)%Q by ring.
    setoid_replace (2 * gmean yu r2)%Q with (gmean yu r2 * 2)%Q by ring. apply Qmult_lt_compat_r; [reflexivity|exact B].
Qed.
Lemma smean_triple2 r1 r2 r3 : 0 < fst r1 -> 0 < fst r2 -> 0 < fst r3 -> (2 * smean r2 <= smean r1 + smean r3) ->
  (2 * gmean yu r2 < gmean yu r1 + gmean yu r3 + 4 / inject_Z M)%Q.
Proof.
  intros H1 H2 H3 H. pose proof (smean_bounds r1 H1) as [A _]. pose proof (smean_bounds r2 H2) as [_ B]. pose proof (smean_bounds r3 H3) as [C _].
  apply Qlt_trans with (2 * (inject_Z (smean r2 + 1) / inject_Z M))%Q.
  { setoid_replace (2 * gmean yu r2)%Q with (gmean yu r2 * 2)%Q by ring.
    setoid_replace (2 * (inject_Z (smean r2 + 1) / inject_Z M))%Q with (inject_Z (smean r2 + 1) / inject_Z M * 2)%Q by ring.
    apply Qmult_lt_compat_r; [reflexivity|exact B]. }
  apply Qle_lt_trans with (inject_Z (smean r1 - 1) / inject_Z M + inject_Z (smean r3 - 1) / inject_Z M + 4 / inject_Z M)%Q.
  - assert (E : (inject_Z (smean r1 - 1) / inject_Z M + inject_Z (smean r3 - 1) / inject_Z M + 4 / inject_Z M == inject_Z (smean r1 - 1 + (smean r3 - 1) + 4) / inject_Z M)%Q).
    { rewrite !inject_Z_plus. unfold Qdiv. change 4%Q with (inject_Z 4). ring. }
    rewrite E. assert (E2 : (2 * (inject_Z (smean r2 + 1) / inject_Z M) == inject_Z (2 * (smean r2 + 1)) / inject_Z M)%Q).
    { rewrite inject_Z_mult. unfold Qdiv. ring. }
    rewrite E2. unfold Qdiv. apply Qmult_le_compat_r; [rewrite <- Zle_Qle; lia|]. apply Qlt_le_weak, Qinv_lt_0_compat, Qpos_inj, HM.
  - apply Qplus_lt_l. apply Qplus_lt_le_compat; [exact A|now apply Qlt_le_weak].
Qed.

(** * Rows of a partition *)
Variables (N S : list Z) (gs : list group).
Let n := length N.
Hypothesis HlS : length S = n.
Hypothesis Hp : partition n gs.
Hypothesis PN : pos_list N.
Let F := fun g : group => (gsum N g, gsum S g).
Lemma cF_pos g : In g gs -> 0 < fst (F g).
Proof. destruct g as [s e]. intros H. pose proof (chain_in _ _ _ _ _ Hp H). cbn [F fst]. apply gsum_pos; auto; unfold n in *; lia. Qed.
Lemma cF_U g : In g gs -> at_group (mean_mat M yu N S) g = smean (F g).
Proof.
  destruct g as [s e]. intros H. pose proof (chain_in _ _ _ _ _ Hp H). unfold at_group, mean_mat, smean, F. cbn [fst snd].
  unfold n in *. rewrite !cum_mat_gsum by lia. reflexivity.
Qed.
Lemma c_le_mean a b : In a gs -> In b gs -> g_le (mean_mat M yu N S) a b -> (gmean yu (F a) < gmean yu (F b) + 2 / inject_Z M)%Q.
Proof. intros Ha Hb H. unfold g_le in H. rewrite !cF_U in H by assumption. apply smean_le; auto using cF_pos. Qed.
Lemma c_mean_le a b : In a gs -> In b gs -> (gmean yu (F a) <= gmean yu (F b))%Q -> g_le (mean_mat M yu N S) a b.
Proof. intros Ha Hb H. unfold g_le. rewrite !cF_U by assumption. apply smean_mono; auto using cF_pos. Qed.
Lemma c_min_diff X d : (0 < n)%nat -> describes n gs X ->
  violation_constrs (c_dviol (Some d) N S) X <->
  neighbours (fun r1 r2 => (d <= Qabs (inject_Z (snd r1) / inject_Z (fst r1) - inject_Z (snd r2) / inject_Z (fst r2)))%Q) (rows_of N S gs).
Proof.
  intros Hn Hr. unfold c_dviol. fold n. rewrite (viol_consecutive_iff n gs X Hn Hp Hr). unfold rows_of.
  assert (G : forall a b, In a gs -> In b gs -> mean_diff_bad d N S (snd a) (fst a) (snd b) (fst b) = false <->
    (d <= Qabs (inject_Z (snd (F a)) / inject_Z (fst (F a)) - inject_Z (snd (F b)) / inject_Z (fst (F b))))%Q).
  { intros [s e] [s' e'] H1 H2. pose proof (chain_in _ _ _ _ _ Hp H1). pose proof (chain_in _ _ _ _ _ Hp H2).
    unfold mean_diff_bad, F. cbn [fst snd]. unfold n in *. rewrite !cum_mat_gsum by lia. rewrite negb_false_iff. apply Qle_bool_iff. }
  split; [apply (neighbours_map F)|apply (neighbours_unmap F)]; intros a b Ha Hb; now apply G.
Qed.
Lemma c_pvalue X p test (SS : list Z) : (0 < n)%nat -> length SS = n -> describes n gs X ->
  violation_constrs (c_pviol p test N S SS) X <->
  match p with
  | PVNone => True
  | PVAll => all_pairs (fun r1 r2 => test r1 r2 = false) (map (fun g => (gsum N g, gsum S g, gsum SS g)) gs)
  | PVConsecutive => neighbours (fun r1 r2 => test r1 r2 = false) (map (fun g => (gsum N g, gsum S g, gsum SS g)) gs)
  end.
Proof.
  intros Hn HSS Hr. unfold c_pviol. fold n.
  assert (G : forall a b, In a gs -> In b gs ->
    test (cand N S SS (snd a) (fst a)) (cand N S SS (snd b) (fst b)) = test (gsum N a, gsum S a, gsum SS a) (gsum N b, gsum S b, gsum SS b)).
  { intros [s e] [s' e'] H1 H2. pose proof (chain_in _ _ _ _ _ Hp H1). pose proof (chain_in _ _ _ _ _ Hp H2).
    unfold cand. cbn [fst snd]. unfold n in *. rewrite !cum_mat_gsum by lia. reflexivity. }
  destruct p.
  - split; [trivial|]. intros _ v [].
  - rewrite (viol_all_iff n gs X Hn Hp Hr).
    split; [apply (all_pairs_map (fun g => (gsum N g, gsum S g, gsum SS g)))|apply (all_pairs_unmap (fun g => (gsum N g, gsum S g, gsum SS g)))]; intros a b Ha Hb; rewrite G by assumption; auto.
  - rewrite (viol_consecutive_iff n gs X Hn Hp Hr).
    split; [apply (neighbours_map (fun g => (gsum N g, gsum S g, gsum SS g)))|apply (neighbours_unmap (fun g => (gsum N g, gsum S g, gsum SS g)))]; intros a b Ha Hb; rewrite G by assumption; auto.
Qed.
End Means.
