From Coq Require Import List ZArith Bool Arith Lia Sorting QArith.
From Verif Require Import Model.Arr Model.Core Model.CP Spec.CoreSpec Spec.CPSpec Spec.CPFitSpec
  Proofs.ArrP Proofs.CoreP Proofs.FitP Proofs.CPP Proofs.CPC Proofs.CPTable.
Import ListNotations.
Open Scope Z_scope.

Lemma map2_In {A B C} (f : A -> B -> C) a b x : In x (map2 f a b) -> exists u v, In u a /\ In v b /\ x = f u v.
Proof.
  revert b; induction a as [|u a IH]; intros [|v b] H; cbn in H; try tauto.
  destruct H as [<-|H]; [exists u, v; cbn; auto|]. destruct (IH _ H) as (u' & v' & Hu & Hv & E).
  exists u', v'. cbn. auto.
Qed.
Lemma clean_weights sp xs ys sw s : In s (to_csamples (split_masks sp xs ys sw)) -> In (cw s) sw.
Proof.
  unfold to_csamples. intros H. apply map2_In in H. destruct H as (u & v & _ & Hv & ->). cbn [cw].
  unfold split_masks in Hv. destruct sp; cbn [sw_clean] in Hv; eapply select_In; eauto.
Qed.

Record fit_facts (f : fitted) (solver : list Z -> list Z -> list bool) (X : mat) (gs : list group) : Prop := {
  ff_part : partition (length (pb_nev (f_prebins f))) gs;
  ff_desc : describes (length (pb_nev (f_prebins f))) gs X;
  ff_len : length (pb_nev (f_prebins f)) = length (pb_ev (f_prebins f));
  ff_splits : length (pb_nev (f_prebins f)) = S (length (pb_splits (f_prebins f)));
  ff_nbins : S (length (f_splits f)) = length gs;
  ff_rows : clean_rows f = rows_of (pb_nev (f_prebins f)) (pb_ev (f_prebins f)) gs;
  ff_kept : forall i s, nth_error (pb_splits (f_prebins f)) i = Some s -> (exists a, In (a, i) gs) -> In s (f_splits f) }.

Lemma fit_groups wu d solver sp fixed user splits0 xs ys sw f X :
  fit_numerical wu d solver sp fixed user splits0 xs ys sw = Some (Ok f) ->
  let n := length (pb_nev (f_prebins f)) in
  (1 < n)%nat -> solver (pb_nev (f_prebins f)) (pb_ev (f_prebins f)) = solution_vector n (Solved X) ->
  structural n X -> exists gs, fit_facts f solver X gs.
Proof.
  intros Hf. cbv zeta. unfold fit_numerical in Hf.
  destruct (compute_prebins _ _ _ _ _ _ _ _ _) as [[pb|e]|] eqn:Ep; try discriminate.
  injection Hf as Hf. apply compute_prebins_refined in Ep.
  assert (Hpb : f_prebins f = pb).
  { unfold finish_fit in Hf. cbv zeta in Hf.
    repeat match type of Hf with context [match ?x with Some _ => _ | None => _ end] => destruct x; try discriminate end.
    injection Hf as <-. reflexivity. }
  rewrite Hpb. intros Hn Hsol HS.
  assert (Hlen : length (pb_nev pb) = length (pb_ev pb)).
  { rewrite (rf_nev _ _ _ _ _ Ep), (rf_ev _ _ _ _ _ Ep). destruct (pb_splits pb); [reflexivity|]. now rewrite !length_counts. }
  destruct (structural_partition (length (pb_nev pb)) X) as (gs & Hp & Hr); [lia|exact HS|].
  destruct (finish_fit_groups wu solver sp _ pb f Hf Hlen) with (X := X) (gs := gs) as (E & Hnb & Hrows & Hk); auto.
  - intros E. rewrite (rf_nev _ _ _ _ _ Ep), E. reflexivity.
  - intros E. rewrite (rf_nev _ _ _ _ _ Ep). destruct (pb_splits pb); [congruence|]. apply length_counts.
  - exists gs. constructor; rewrite ?Hpb; auto.
    rewrite (rf_nev _ _ _ _ _ Ep) in Hn |- *. destruct (pb_splits pb); [cbn in Hn; lia|]. apply length_counts.
Qed.

Lemma fit_pos wu d solver sp fixed user splits0 xs ys sw f :
  0 < wu -> (forall w, In w sw -> 0 <= w) -> (d = IV \/ d = JS) ->
  fit_numerical wu d solver sp fixed user splits0 xs ys sw = Some (Ok f) ->
  pos_list (pb_nev (f_prebins f)) /\ pos_list (pb_ev (f_prebins f)).
Proof.
  intros Hw Hsw Hd Hf. unfold fit_numerical in Hf.
  destruct (compute_prebins _ _ _ _ _ _ _ _ _) as [[pb|e]|] eqn:Ep; try discriminate.
  injection Hf as Hf. apply compute_prebins_refined in Ep.
  assert (Hpb : f_prebins f = pb).
  { unfold finish_fit in Hf. cbv zeta in Hf.
    repeat match type of Hf with context [match ?x with Some _ => _ | None => _ end] => destruct x; try discriminate end.
    injection Hf as <-. reflexivity. }
  rewrite Hpb. eapply refined_pos; eauto.
  - intros s Hs. apply Hsw. eapply clean_weights; eauto.
  - destruct Hd as [-> | ->]; reflexivity.
Qed.

(** ** Rows of a partition *)
Section Rows.
Variables (ne ev : list Z) (gs : list group) (M : Z).
Let n := length ne.
Hypothesis Hl : length ne = length ev.
Hypothesis Hp : partition n gs.
Hypothesis Pn : pos_list ne.
Hypothesis Pe : pos_list ev.
Let F := fun g : group => (gsum ne g, gsum ev g).

Lemma grp g : In g gs -> (fst g <= snd g)%nat /\ (snd g < n)%nat.
Proof. destruct g as [s e]. intros H. pose proof (chain_in _ _ _ _ _ Hp H). cbn. lia. Qed.
Lemma F_pos g : In g gs -> 0 < fst (F g) /\ 0 < snd (F g).
Proof.
  intros Hg. destruct (grp g Hg). destruct g as [s e]. cbn [F fst snd] in *.
  split; apply gsum_pos; auto; unfold n in *; lia.
Qed.
Lemma F_rec g : In g gs -> 0 < records (F g).
Proof. intros Hg. pose proof (F_pos g Hg). unfold records. lia. Qed.
Lemma F_D g : In g gs -> at_group (rate_mat M ne ev) g = (M * snd (F g)) / records (F g).
Proof. intros Hg. destruct (grp g Hg). destruct g as [s e]. cbn [fst snd] in *. rewrite rate_mat_group; auto. Qed.
Lemma g_le_rate g1 g2 : 0 < M -> In g1 gs -> In g2 gs -> g_le (rate_mat M ne ev) g1 g2 -> rate_le_res M (F g1) (F g2).
Proof.
  intros HM H1 H2 H. unfold g_le in H. rewrite !F_D in H by assumption.
  apply floor_le_rate; auto using F_rec.
Qed.
Lemma rate_g_le g1 g2 : 0 <= M -> In g1 gs -> In g2 gs -> (rate (F g1) <= rate (F g2))%Q -> g_le (rate_mat M ne ev) g1 g2.
Proof.
  intros HM H1 H2 H. unfold g_le. rewrite !F_D by assumption. apply rate_le_floor; auto using F_rec.
Qed.
Lemma size_F cnt (h : Z * Z -> Z) mn mx :
  (forall g, In g gs -> sum_range (fst g) (S (snd g)) cnt = h (F g)) ->
  size_bounds gs cnt mn mx <-> Forall (fun r => within mn mx (h r)) (rows_of ne ev gs).
Proof.
  intros Hc. unfold size_bounds, rows_of. rewrite Forall_map, Forall_forall. split.
  - intros H [s e] Hin. specialize (Hc _ Hin). cbn [fst snd] in Hc. fold (F (s, e)). rewrite <- Hc. exact (H s e Hin).
  - intros H s e Hin. specialize (Hc _ Hin). specialize (H _ Hin). cbn [fst snd] in Hc. fold (F (s, e)) in H. rewrite <- Hc in H. exact H.
Qed.
Lemma cnt_ne g : In g gs -> sum_range (fst g) (S (snd g)) (at0 ne) = fst (F g).
Proof. intros Hg. destruct (grp g Hg). destruct g as [s e]. cbn [fst snd] in *. now rewrite sum_range_nth. Qed.
Lemma cnt_ev g : In g gs -> sum_range (fst g) (S (snd g)) (at0 ev) = snd (F g).
Proof. intros Hg. destruct (grp g Hg). destruct g as [s e]. cbn [fst snd] in *. rewrite sum_range_nth; [reflexivity|assumption|unfold n in *; lia]. Qed.
Lemma sum_range_plus lo hi f g : sum_range lo hi (fun j => f j + g j) = sum_range lo hi f + sum_range lo hi g.
Proof. unfold sum_range. apply zsum_map_plus. Qed.
Lemma cnt_rec g : In g gs -> sum_range (fst g) (S (snd g)) (fun j => at0 ne j + at0 ev j) = records (F g).
Proof. intros Hg. rewrite sum_range_plus, cnt_ne, cnt_ev by assumption. reflexivity. Qed.
Lemma pvalue_F test g1 g2 : In g1 gs -> In g2 gs ->
  pvalue_bad test ne ev (snd g1) (fst g1) (snd g2) (fst g2) = test (F g1) (F g2).
Proof.
  intros H1 H2. destruct (grp g1 H1), (grp g2 H2). unfold pvalue_bad.
  unfold n in *. rewrite !cum_mat_gsum by lia. destruct g1, g2. reflexivity.
Qed.
End Rows.

Lemma pvalue_iff p test ne ev gs X : (0 < length ne)%nat -> length ne = length ev -> partition (length ne) gs ->
  describes (length ne) gs X ->
  violation_constrs (pviol_of p test ne ev) X <-> pvalue_ok p test (rows_of ne ev gs).
Proof.
  intros Hn Hl Hp Hr. destruct p; cbn [pviol_of pvalue_ok].
  - split; [trivial|]. intros _ v [].
  - rewrite (viol_all_iff _ _ _ Hn Hp Hr). unfold rows_of. split.
    + apply all_pairs_map. intros a b Ha Hb E. rewrite <- (pvalue_F ne ev gs Hl Hp test a b Ha Hb). exact E.
    + apply all_pairs_unmap. intros a b Ha Hb E. rewrite (pvalue_F ne ev gs Hl Hp test a b Ha Hb). exact E.
  - rewrite (viol_consecutive_iff _ _ _ Hn Hp Hr). unfold rows_of. split.
    + apply neighbours_map. intros a b Ha Hb E. rewrite <- (pvalue_F ne ev gs Hl Hp test a b Ha Hb). exact E.
    + apply neighbours_unmap. intros a b Ha Hb E. rewrite (pvalue_F ne ev gs Hl Hp test a b Ha Hb). exact E.
Qed.

(** ** min_event_rate_diff *)
Lemma Q_le_cross a b c d : 0 < b -> 0 < d -> (inject_Z a / inject_Z b <= inject_Z c / inject_Z d)%Q -> a * d <= c * b.
Proof.
  intros Hb Hd H. destruct (Z_le_gt_dec (a * d) (c * b)) as [|Hgt]; [assumption|exfalso].
  apply (Qlt_not_le (inject_Z c / inject_Z d) (inject_Z a / inject_Z b)); [|exact H]. apply Q_lt_div; lia.
Qed.
Lemma Q_div_sub a b c d : 0 < b -> 0 < d ->
  (inject_Z a / inject_Z b - inject_Z c / inject_Z d == inject_Z (a * d - c * b) / inject_Z (b * d))%Q.
Proof.
  intros Hb Hd. unfold Z.sub. rewrite inject_Z_plus, inject_Z_opp, !inject_Z_mult. field.
  split; intros E; [apply (inject_Z_injective d 0) in E|apply (inject_Z_injective b 0) in E]; lia.
Qed.
Lemma rate_gap_floor M k (r1 r2 : Z * Z) : 0 < M -> 0 < records r1 -> 0 < records r2 ->
  (inject_Z k / inject_Z M <= rate r2 - rate r1)%Q -> k <= (M * snd r2) / records r2 - (M * snd r1) / records r1.
Proof.
  intros HM H1 H2 H. unfold rate in H. fold (records r1) (records r2) in H.
  rewrite Q_div_sub in H by lia. apply Q_le_cross in H; [|lia|nia].
  pose proof (Z.mul_div_le (M * snd r1) (records r1) H1).
  pose proof (Z.mul_succ_div_gt (M * snd r2) (records r2) H2).
  set (d1 := M * snd r1 / records r1) in *. set (d2 := M * snd r2 / records r2) in *.
  destruct (Z_le_gt_dec k (d2 - d1)) as [|Hgt]; [assumption|exfalso].
  assert (d2 + 1 <= k + d1) by lia.
  assert (G1 : M * snd r2 < (k + d1) * records r2) by nia.
  assert (G2 : M * snd r2 * records r1 < (k + d1) * records r2 * records r1) by (apply Z.mul_lt_mono_pos_r; lia).
  assert (G3 : records r1 * d1 * records r2 <= M * snd r1 * records r2) by (apply Z.mul_le_mono_nonneg_r; lia). nia.
Qed.

Section MinDiff.
Variables (ne ev : list Z) (gs : list group) (M k : Z) (X : mat).
Hypothesis Hn : (0 < length ne)%nat.
Hypothesis HM : 0 < M.
Hypothesis Hl : length ne = length ev.
Hypothesis Hp : partition (length ne) gs.
Hypothesis Hr : describes (length ne) gs X.
Hypothesis Pn : pos_list ne.
Hypothesis Pe : pos_list ev.
Lemma min_diff_sound : violation_constrs (dviol_of (Some k) M ne ev) X -> neighbours (apart_res M k) (rows_of ne ev gs).
Proof.
  cbn [dviol_of]. rewrite (viol_consecutive_iff _ _ _ Hn Hp Hr). unfold rows_of. apply neighbours_map.
  intros a b Ha Hb E. unfold min_diff_bad in E. apply Z.ltb_ge in E.
  fold (at_group (rate_mat M ne ev) a) (at_group (rate_mat M ne ev) b) in E.
  rewrite !(F_D ne ev gs M Hl Hp) in E by assumption.
  pose proof (F_rec ne ev gs Hl Hp Pn Pe a Ha) as Ra. pose proof (F_rec ne ev gs Hl Hp Pn Pe b Hb) as Rb.
  destruct (Z_le_gt_dec 0 ((M * gsum ev b) / records (gsum ne b, gsum ev b) - (M * gsum ev a) / records (gsum ne a, gsum ev a))) as [Hle|Hgt];
    cbn [snd] in *.
  - left. apply floor_gap_rate; auto. cbn [snd]. lia.
  - right. apply floor_gap_rate; auto. cbn [snd]. lia.
Qed.
Lemma min_diff_complete : neighbours (apart M k) (rows_of ne ev gs) -> violation_constrs (dviol_of (Some k) M ne ev) X.
Proof.
  cbn [dviol_of]. rewrite (viol_consecutive_iff _ _ _ Hn Hp Hr). unfold rows_of. apply neighbours_unmap.
  intros a b Ha Hb E. unfold min_diff_bad. apply Z.ltb_ge.
  fold (at_group (rate_mat M ne ev) a) (at_group (rate_mat M ne ev) b).
  rewrite !(F_D ne ev gs M Hl Hp) by assumption.
  pose proof (F_rec ne ev gs Hl Hp Pn Pe a Ha) as Ra. pose proof (F_rec ne ev gs Hl Hp Pn Pe b Hb) as Rb.
  destruct E as [E|E]; apply rate_gap_floor in E; auto; cbn [snd] in *; lia.
Qed.
End MinDiff.

(** ** Completeness *)
Lemma trend_complete ne ev gs M g X : (0 < length ne)%nat -> 0 <= M -> length ne = length ev ->
  partition (length ne) gs -> describes (length ne) gs X -> pos_list ne -> pos_list ev -> g_md0 g = false ->
  trend_met (g_trend g) (rows_of ne ev gs) -> trend_constr (length ne) (rate_mat M ne ev) M g X.
Proof.
  intros Hn HM Hl Hp Hr Pn Pe Hmd Ht.
  assert (HD : bounded (length ne) (rate_mat M ne ev) M) by now apply rate_mat_bounded.
  assert (Le : forall a b, In a gs -> In b gs -> rate_le (gsum ne a, gsum ev a) (gsum ne b, gsum ev b) -> g_le (rate_mat M ne ev) a b)
    by (intros a b Ha Hb H; apply (rate_g_le ne ev gs M Hl Hp Pn Pe); auto).
  assert (Ge : forall a b, In a gs -> In b gs -> rate_ge (gsum ne a, gsum ev a) (gsum ne b, gsum ev b) -> g_ge (rate_mat M ne ev) a b)
    by (intros a b Ha Hb H; apply (rate_g_le ne ev gs M Hl Hp Pn Pe); auto).
  unfold trend_constr. destruct (g_trend g); cbn [trend_met] in Ht; try contradiction.
  - exact I.
  - apply (ascending_iff _ _ _ Hn Hp Hr _ _ HD). split; [|congruence]. eapply all_pairs_unmap; [|exact Ht]. auto.
  - apply (descending_iff _ _ _ Hn Hp Hr _ _ HD). split; [|congruence]. eapply all_pairs_unmap; [|exact Ht]. auto.
  - apply (peak_iff _ _ _ Hn Hp Hr _ _ HD). eapply up_down_unmap; [|exact Ht]. auto.
  - apply (valley_iff _ _ _ Hn Hp Hr _ _ HD). eapply up_down_unmap; [|exact Ht]. auto.
Qed.

Lemma feasible_complete ne ev gs M g pol test md X : (0 < length ne)%nat -> 0 < M -> length ne = length ev ->
  partition (length ne) gs -> describes (length ne) gs X -> pos_list ne -> pos_list ev -> g_md0 g = false ->
  g_pviol g = pviol_of pol test ne ev -> g_dviol g = dviol_of md M ne ev ->
  spec_ok ne ev gs M g pol test md ->
  feasible (length ne) (rate_mat M ne ev) M (at0 ne) (at0 ev) g X.
Proof.
  intros Hn HM Hl Hp Hr Pn Pe Hmd Epv Edv [Ht Hb Hs Hne Hev Hpv Hd Hf].
  destruct (represents_structural _ _ _ Hp Hr) as (S1 & S2 & S3).
  refine (conj S1 (conj S2 (conj S3 (conj _ (conj _ (conj _ (conj _ (conj _ (conj _ (conj _ _)))))))))).
  - now apply (min_max_bins_iff _ _ _ Hn Hp Hr).
  - apply (min_max_bin_size_iff _ _ _ Hn Hp Hr). eapply (size_F ne ev gs _ records); [|exact Hs].
    intros x Hx. now apply (cnt_rec ne ev gs).
  - apply (min_max_count_iff _ _ _ Hn Hp Hr).
    eapply (size_F ne ev gs _ fst); [|exact Hne]. intros x Hx. now apply (cnt_ne ne ev gs).
  - apply (min_max_count_iff _ _ _ Hn Hp Hr).
    eapply (size_F ne ev gs _ snd); [|exact Hev]. intros x Hx. now apply (cnt_ev ne ev gs).
  - apply (trend_complete ne ev gs); auto. lia.
  - rewrite Epv. apply (pvalue_iff pol test ne ev gs X); auto.
  - rewrite Edv. destruct md as [k|]; [|intros v []]. apply (min_diff_complete ne ev gs M k X); auto.
  - apply (fixed_iff _ _ _ Hn Hp Hr). exact Hf.
Qed.

(** soundness on rows *)
Section Sound.
Variables (ne ev : list Z) (M : Z) (g : cp_cfg) (X : mat) (gs : list group).
Hypothesis Hn : (0 < length ne)%nat.
Hypothesis Hl : length ne = length ev.
Hypothesis Hp : partition (length ne) gs.
Hypothesis Hr : describes (length ne) gs X.
Hypothesis Hf : feasible (length ne) (rate_mat M ne ev) M (at0 ne) (at0 ev) g X.

Lemma sound_sizes :
  within (g_min_bins g) (g_max_bins g) (Z.of_nat (length gs)) /\
  Forall (fun r => within (g_min_size g) (g_max_size g) (records r) /\
     within (g_min_ne g) (g_max_ne g) (fst r) /\ within (g_min_e g) (g_max_e g) (snd r)) (rows_of ne ev gs).
Proof.
  destruct Hf as (_ & _ & _ & Hb & Hs & Hne & Hev & _).
  split; [now apply (min_max_bins_iff _ _ _ Hn Hp Hr)|].
  apply (min_max_bin_size_iff _ _ _ Hn Hp Hr) in Hs. apply (min_max_count_iff _ _ _ Hn Hp Hr) in Hne, Hev.
  apply (size_F ne ev gs _ records) in Hs; [|intros x Hx; now apply (cnt_rec ne ev gs)].
  apply (size_F ne ev gs _ fst) in Hne; [|intros x Hx; now apply (cnt_ne ne ev gs)].
  apply (size_F ne ev gs _ snd) in Hev; [|intros x Hx; now apply (cnt_ev ne ev gs)].
  rewrite Forall_forall in *. intros r Hin. auto.
Qed.
Hypothesis HM : 0 < M.
Hypothesis Pn : pos_list ne.
Hypothesis Pe : pos_list ev.
Lemma HB : bounded (length ne) (rate_mat M ne ev) M.
Proof. apply rate_mat_bounded; auto; lia. Qed.
Lemma LE a b : In a gs -> In b gs -> g_le (rate_mat M ne ev) a b -> rate_le_res M (gsum ne a, gsum ev a) (gsum ne b, gsum ev b).
Proof. intros. apply (g_le_rate ne ev gs M Hl Hp Pn Pe); auto. Qed.
Lemma GE a b : In a gs -> In b gs -> g_ge (rate_mat M ne ev) a b -> rate_ge_res M (gsum ne a, gsum ev a) (gsum ne b, gsum ev b).
Proof. intros. apply (g_le_rate ne ev gs M Hl Hp Pn Pe); auto. Qed.
Lemma sound_asc : g_trend g = TAscending -> all_pairs (rate_le_res M) (rows_of ne ev gs).
Proof.
  destruct Hf as (_ & _ & _ & _ & _ & _ & _ & Ht & _). unfold trend_constr in Ht. intros E. rewrite E in Ht.
  apply (ascending_iff _ _ _ Hn Hp Hr _ _ HB) in Ht. destruct Ht as [Ht _]. eapply all_pairs_map; [|exact Ht]. apply LE.
Qed.
Lemma sound_desc : g_trend g = TDescending -> all_pairs (rate_ge_res M) (rows_of ne ev gs).
Proof.
  destruct Hf as (_ & _ & _ & _ & _ & _ & _ & Ht & _). unfold trend_constr in Ht. intros E. rewrite E in Ht.
  apply (descending_iff _ _ _ Hn Hp Hr _ _ HB) in Ht. destruct Ht as [Ht _]. eapply all_pairs_map; [|exact Ht]. apply GE.
Qed.
Lemma sound_peak : g_trend g = TPeak \/ (exists tc, (tc <= length ne)%nat /\ g_trend g = TPeakHeuristic tc) ->
  up_down (rate_le_res M) (rows_of ne ev gs).
Proof.
  destruct Hf as (_ & _ & _ & _ & _ & _ & _ & Ht & _). unfold trend_constr in Ht. intros [E|(tc & Htc & E)]; rewrite E in Ht.
  - apply (peak_iff _ _ _ Hn Hp Hr _ _ HB) in Ht. eapply up_down_map; [|exact Ht]. apply LE.
  - apply (peak_heuristic_sound _ _ _ Hn Hp Hr _ _ HB) in Ht; [|exact Htc]. eapply up_down_map; [|exact Ht]. apply LE.
Qed.
Lemma sound_valley : g_trend g = TValley \/ (exists tc, (tc <= length ne)%nat /\ g_trend g = TValleyHeuristic tc) ->
  up_down (rate_ge_res M) (rows_of ne ev gs).
Proof.
  destruct Hf as (_ & _ & _ & _ & _ & _ & _ & Ht & _). unfold trend_constr in Ht. intros [E|(tc & Htc & E)]; rewrite E in Ht.
  - apply (valley_iff _ _ _ Hn Hp Hr _ _ HB) in Ht. eapply up_down_map; [|exact Ht]. apply GE.
  - apply (valley_heuristic_sound _ _ _ Hn Hp Hr _ _ HB) in Ht; [|exact Htc]. eapply up_down_map; [|exact Ht]. apply GE.
Qed.
Lemma rate_add r1 r2 : 0 < records r1 -> 0 < records r2 ->
  (rate r1 + rate r2 == inject_Z (snd r1 * records r2 + snd r2 * records r1) / inject_Z (records r1 * records r2))%Q.
Proof. intros. unfold rate. fold (records r1) (records r2). now apply Q_div_add. Qed.
Lemma triple_floor r1 r2 r3 : 0 < records r1 -> 0 < records r2 -> 0 < records r3 ->
  (M * snd r1) / records r1 + (M * snd r3) / records r3 <= 2 * ((M * snd r2) / records r2) ->
  (rate r1 + rate r3 < 2 * rate r2 + 2 / inject_Z M)%Q.
Proof.
  intros H1 H2 H3 H. rewrite rate_add by assumption.
  setoid_replace (2 * rate r2 + 2 / inject_Z M)%Q with (inject_Z (2 * snd r2 * M + 2 * records r2) / inject_Z (records r2 * M))%Q.
  2:{ unfold rate. fold (records r2). rewrite inject_Z_plus, !inject_Z_mult. change (inject_Z 2) with 2%Q. field.
      split; intros E; [apply (inject_Z_injective M 0) in E|apply (inject_Z_injective (records r2) 0) in E]; lia. }
  apply Q_lt_div; [nia|nia|].
  pose proof (Z.mul_succ_div_gt (M * snd r1) (records r1) H1) as G1.
  pose proof (Z.mul_succ_div_gt (M * snd r3) (records r3) H3) as G3.
  pose proof (Z.mul_div_le (M * snd r2) (records r2) H2) as G2.
  set (d1 := M * snd r1 / records r1) in *. set (d2 := M * snd r2 / records r2) in *. set (d3 := M * snd r3 / records r3) in *.
  set (n1 := records r1) in *. set (n2 := records r2) in *. set (n3 := records r3) in *.
  assert (A1 : M * snd r1 * n3 < n1 * Z.succ d1 * n3) by (apply Z.mul_lt_mono_pos_r; lia).
  assert (A3 : M * snd r3 * n1 < n3 * Z.succ d3 * n1) by (apply Z.mul_lt_mono_pos_r; lia).
  assert (A : M * (snd r1 * n3 + snd r3 * n1) < n1 * n3 * (d1 + d3 + 2)) by nia.
  assert (B : n1 * n3 * (d1 + d3 + 2) <= n1 * n3 * (2 * d2 + 2)) by (apply Z.mul_le_mono_nonneg_l; nia).
  assert (C : M * (snd r1 * n3 + snd r3 * n1) < n1 * n3 * (2 * d2 + 2)) by lia.
  assert (C2 : M * (snd r1 * n3 + snd r3 * n1) * n2 < n1 * n3 * (2 * d2 + 2) * n2) by (apply Z.mul_lt_mono_pos_r; lia).
  assert (E : n1 * n3 * (2 * (n2 * d2)) <= n1 * n3 * (2 * (M * snd r2))) by (apply Z.mul_le_mono_nonneg_l; nia).
  nia.
Qed.
Lemma triple_floor2 r1 r2 r3 : 0 < records r1 -> 0 < records r2 -> 0 < records r3 ->
  2 * ((M * snd r2) / records r2) <= (M * snd r1) / records r1 + (M * snd r3) / records r3 ->
  (2 * rate r2 < rate r1 + rate r3 + 2 / inject_Z M)%Q.
Proof.
  intros H1 H2 H3 H. 
  setoid_replace (2 * rate r2)%Q with (inject_Z (2 * snd r2) / inject_Z (records r2))%Q.
  2:{ unfold rate. fold (records r2). rewrite !inject_Z_mult. change (inject_Z 2) with 2%Q. field.
      intros E; apply (inject_Z_injective (records r2) 0) in E; lia. }
  rewrite rate_add by assumption. change 2%Q with (inject_Z 2). rewrite Q_div_add by nia.
  apply Q_lt_div; [lia|nia|].
  pose proof (Z.mul_div_le (M * snd r1) (records r1) H1) as G1.
  pose proof (Z.mul_div_le (M * snd r3) (records r3) H3) as G3.
  pose proof (Z.mul_succ_div_gt (M * snd r2) (records r2) H2) as G2.
  set (d1 := M * snd r1 / records r1) in *. set (d2 := M * snd r2 / records r2) in *. set (d3 := M * snd r3 / records r3) in *.
  set (n1 := records r1) in *. set (n2 := records r2) in *. set (n3 := records r3) in *.
  assert (A1 : n1 * d1 * n3 <= M * snd r1 * n3) by (apply Z.mul_le_mono_nonneg_r; lia).
  assert (A3 : n3 * d3 * n1 <= M * snd r3 * n1) by (apply Z.mul_le_mono_nonneg_r; lia).
  assert (A : n1 * n3 * (d1 + d3) <= M * (snd r1 * n3 + snd r3 * n1)) by nia.
  assert (P13 : 0 < n1 * n3) by nia.
  assert (B : n1 * n3 * (2 * (M * snd r2)) < n1 * n3 * (2 * (n2 * Z.succ d2))) by (apply Z.mul_lt_mono_pos_l; lia).
  assert (C : n1 * n3 * (2 * d2) <= n1 * n3 * (d1 + d3)) by (apply Z.mul_le_mono_nonneg_l; lia).
  assert (C2 : n1 * n3 * (2 * d2) * n2 <= M * (snd r1 * n3 + snd r3 * n1) * n2) by (apply Z.mul_le_mono_nonneg_r; lia).
  nia.
Qed.
Lemma sound_concave : g_trend g = TConcave ->
  all_triples (fun r1 r2 r3 => (rate r1 + rate r3 < 2 * rate r2 + 2 / inject_Z M)%Q) (rows_of ne ev gs).
Proof.
  destruct Hf as (_ & _ & _ & _ & _ & _ & _ & Ht & _). unfold trend_constr in Ht. intros E; rewrite E in Ht.
  eapply all_triples_map; [|exact (triples_all _ _ _ _ Hp (concave_sound _ _ _ Hn Hp Hr _ _ Ht))].
  intros a b c Ha Hb Hc H. cbv beta in H. rewrite !(F_D ne ev gs M Hl Hp) in H by assumption.
  apply triple_floor; auto; apply (F_rec ne ev gs Hl Hp Pn Pe); assumption.
Qed.
Lemma sound_convex : g_trend g = TConvex ->
  all_triples (fun r1 r2 r3 => (2 * rate r2 < rate r1 + rate r3 + 2 / inject_Z M)%Q) (rows_of ne ev gs).
Proof.
  destruct Hf as (_ & _ & _ & _ & _ & _ & _ & Ht & _). unfold trend_constr in Ht. intros E; rewrite E in Ht.
  eapply all_triples_map; [|exact (triples_all _ _ _ _ Hp (convex_sound _ _ _ Hn Hp Hr _ _ Ht))].
  intros a b c Ha Hb Hc H. cbv beta in H. rewrite !(F_D ne ev gs M Hl Hp) in H by assumption.
  apply triple_floor2; auto; apply (F_rec ne ev gs Hl Hp Pn Pe); assumption.
Qed.
End Sound.

(** ** No solution: single bin *)
Lemma merge_all_false k : forall acc l, length l = S k ->
  merge_loop acc (repeat false k ++ [true]) l = Some [acc + zsum l].
Proof.
  intros acc l Hl. rewrite (merge_block k acc [] l) by lia.
  rewrite firstn_all2 by lia. rewrite skipn_all2 by lia. reflexivity.
Qed.
Lemma select_all_false {A} k (l : list A) : select (repeat false k) l = [].
Proof. revert l; induction k as [|k IH]; intros [|x l]; cbn; auto. Qed.
Lemma fit_prebins wu d solver sp fixed user splits0 xs ys sw f :
  fit_numerical wu d solver sp fixed user splits0 xs ys sw = Some (Ok f) ->
  refined wu d (to_csamples (split_masks sp xs ys sw)) splits0 (f_prebins f) /\
  finish_fit wu solver sp (split_masks sp xs ys sw) (f_prebins f) = Ok f.
Proof.
  intros Hf. unfold fit_numerical in Hf.
  destruct (compute_prebins _ _ _ _ _ _ _ _ _) as [[pb|e]|] eqn:Ep; try discriminate.
  injection Hf as Hf. apply compute_prebins_refined in Ep.
  assert (Hpb : f_prebins f = pb).
  { unfold finish_fit in Hf. cbv zeta in Hf.
    repeat match type of Hf with context [match ?x with Some _ => _ | None => _ end] => destruct x; try discriminate end.
    injection Hf as <-. reflexivity. }
  rewrite Hpb. split; assumption.
Qed.
Lemma no_solution wu d solver sp fixed user splits0 xs ys sw f :
  fit_numerical wu d solver sp fixed user splits0 xs ys sw = Some (Ok f) ->
  let nev := pb_nev (f_prebins f) in let ev := pb_ev (f_prebins f) in
  (1 < length nev)%nat -> solver nev ev = solution_vector (length nev) NoSolution ->
  f_splits f = [] /\ clean_rows f = [(zsum nev, zsum ev)].
Proof.
  intros Hf nev ev Hn Hsol. destruct (fit_prebins _ _ _ _ _ _ _ _ _ _ _ Hf) as [Ep Hff].
  assert (Hlen : length nev = length ev).
  { unfold nev, ev. rewrite (rf_nev _ _ _ _ _ Ep), (rf_ev _ _ _ _ _ Ep). destruct (pb_splits _); [reflexivity|]. now rewrite !length_counts. }
  assert (Hs : pb_splits (f_prebins f) <> []).
  { intros E. unfold nev in Hn. rewrite (rf_nev _ _ _ _ _ Ep), E in Hn. cbn in Hn. lia. }
  unfold finish_fit in Hff. cbv zeta in Hff.
  assert (Hle : (length nev <=? 1)%nat = false) by (apply Nat.leb_gt; lia).
  fold nev ev in Hff. rewrite Hle in Hff. unfold optimal_splits in Hff. rewrite Hle, Hsol in Hff.
  destruct (pb_splits (f_prebins f)) as [|s r] eqn:Es; [congruence|].
  cbn [solution_vector] in Hff. unfold bin_info_1 in Hff.
  destruct (repeat false (length nev - 1) ++ [true]) as [|b0 l0] eqn:El.
  { destruct (repeat false (length nev - 1)); discriminate. }
  rewrite <- El in Hff. rewrite !merge_all_false in Hff by lia. cbn [option_map app] in Hff.
  assert (E0 : select (init (repeat false (length nev - 1) ++ [true])) (s :: r) = []).
  { unfold init. rewrite removelast_last. apply select_all_false. }
  rewrite E0 in Hff. destruct f as [fs fsol fn fe fnp fpb]. cbn [f_prebins f_splits f_nev f_ev] in *.
  injection Hff as H1 H2 H3 H4 H5. subst fs fn fe. split; [reflexivity|].
  unfold clean_rows. cbn [f_splits f_nev f_ev length firstn combine]. reflexivity.
Qed.

(** every outcome of [solve] is a legal solution vector *)
Lemma solve_shape n o : (0 < n)%nat -> (forall X, o = Solved X -> structural n X) ->
  length (solution_vector n o) = n /\ last (solution_vector n o) false = true.
Proof.
  intros Hn H. destruct o as [X|].
  - destruct (structural_partition n X Hn (H X eq_refl)) as (gs & Hp & Hr).
    destruct (last_solution n gs X Hn Hp Hr) as (A & B & _). auto.
  - cbn [solution_vector]. split; [rewrite app_length, repeat_length; cbn; lia|apply last_last].
Qed.

(** a trend request alone is never infeasible: the single bin qualifies *)
Lemma single_partition n : (0 < n)%nat -> partition n [(0, n - 1)%nat].
Proof. intros Hn. constructor; [lia|]. replace (S (n - 1)) with n by lia. constructor. Qed.
Lemma single_diag n X : (0 < n)%nat -> describes n [(0, n - 1)%nat] X -> forall i, (i < n - 1)%nat -> X i i = 0.
Proof.
  intros Hn Hr i Hi. apply (X_not_end n [(0, n - 1)%nat] X Hr); [lia|lia|].
  intros s [E|[]]. injection E as _ E. lia.
Qed.
Lemma single_preproc n X lo hi jlo cmp D : (0 < n)%nat -> (hi <= n)%nat -> describes n [(0, n - 1)%nat] X -> preproc lo hi jlo cmp D X.
Proof.
  intros Hn Hhi Hr i Hlo Hi _. split; [apply (single_diag n X Hn Hr); lia|].
  intros j Hj1 Hj2 _. apply (single_diag n X Hn Hr). lia.
Qed.
Lemma single_trend n D M g X : (0 < n)%nat -> bounded n D M -> describes n [(0, n - 1)%nat] X ->
  (forall tc, g_trend g = TPeakHeuristic tc \/ g_trend g = TValleyHeuristic tc -> (tc <= n)%nat) ->
  trend_constr n D M g X.
Proof.
  intros Hn HD Hr Htc. pose proof (single_partition n Hn) as Hp.
  assert (A1 : forall P : group -> group -> Prop, all_pairs P [(0, n - 1)%nat]) by (intros P; repeat constructor).
  assert (Hasc : forall i z, (z < i)%nat -> (i < n)%nat -> asc_constr D X M i z).
  { intros i z Hz Hi. pose proof (proj2 (asc_range_iff n [(0, n-1)%nat] X Hn Hp Hr D M HD 0 n ltac:(lia))) as G.
    apply G; [|lia|lia|lia]. intros s1 e1 s2 e2 [E1|[]] [E2|[]] _ Hlt _. injection E1 as <- <-. injection E2 as <- <-. lia. }
  assert (Hdesc : forall i z, (z < i)%nat -> (i < n)%nat -> desc_constr D X M i z).
  { intros i z Hz Hi. pose proof (proj2 (desc_range_iff n [(0, n-1)%nat] X Hn Hp Hr D M HD 0 n ltac:(lia))) as G.
    apply G; [|lia|lia|lia]. intros s1 e1 s2 e2 [E1|[]] [E2|[]] _ Hlt _. injection E1 as <- <-. injection E2 as <- <-. lia. }
  assert (Hrow : forall i, (i < n - 1)%nat -> row_rate D X i = 0 /\ X i i = 0).
  { intros i Hi. split; [|now apply (single_diag n X Hn Hr)]. apply (row_rate_other n _ X Hr); [lia|].
    intros s [E|[]]. injection E as _ E. lia. }
  pose proof (HM n Hn D M HD) as H0.
  assert (Hb : forall i, (i < n)%nat -> 0 <= row_rate D X i <= M /\ (X i i = 0 \/ X i i = 1)).
  { intros i Hi. split; [apply (row_bounds n _ X Hn Hp Hr D M HD); exact Hi|apply Hr; lia]. }
  unfold trend_constr. destruct (g_trend g) eqn:Et.
  - exact I.
  - split; [intros; apply Hasc; lia|]. intros _. apply (single_preproc n); auto.
  - split; [intros; apply Hdesc; lia|]. intros _. apply (single_preproc n); auto.
  - intros i j k Hi Hj Hk. destruct (Hrow j ltac:(lia)) as [-> ->]. destruct (Hrow k ltac:(lia)) as [-> ->].
    destruct (Hb i ltac:(lia)) as [B1 [B2|B2]]; rewrite B2; lia.
  - intros i j k Hi Hj Hk. destruct (Hrow j ltac:(lia)) as [-> ->]. destruct (Hrow k ltac:(lia)) as [-> ->].
    destruct (Hb i ltac:(lia)) as [B1 [B2|B2]]; rewrite B2; lia.
  - apply (peak_iff _ _ _ Hn Hp Hr _ _ HD). exists [(0, n - 1)%nat], []. split; [reflexivity|]. split; [apply A1|constructor].
  - apply (valley_iff _ _ _ Hn Hp Hr _ _ HD). exists [(0, n - 1)%nat], []. split; [reflexivity|]. split; [apply A1|constructor].
  - specialize (Htc tc (or_introl eq_refl)). split; [intros; apply Hasc; lia|]. split; [intros _; apply (single_preproc n); auto|].
    split; [intros; apply Hdesc; lia|]. intros _; apply (single_preproc n); auto.
  - specialize (Htc tc (or_intror eq_refl)). split; [intros; apply Hdesc; lia|]. split; [intros _; apply (single_preproc n); auto|].
    split; [intros; apply Hasc; lia|]. intros _; apply (single_preproc n); auto.
Qed.
