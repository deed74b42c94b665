From Coq Require Import List ZArith Bool Arith Reals Lra Lia QArith Qreals.
From Verif Require Import Model.Arr Model.Core Model.Metrics Model.CP Model.MIP Spec.CPSpec Spec.CPFitSpec Spec.MIPSpec
  Proofs.MetricsP Proofs.MetricsQ Proofs.CPP Proofs.CPC Proofs.CPTable Proofs.CPFinal Proofs.MIPP Proofs.MIPQ.
Import ListNotations.
Open Scope R_scope.

(** *** real sums over group ends *)
Lemma sumr_nil lo hi f : (hi <= lo)%nat -> sumr lo hi f = 0.
Proof. intros H. unfold sumr. replace (hi - lo)%nat with O by lia. reflexivity. Qed.
Lemma sumr_split lo mid hi f : (lo <= mid)%nat -> (mid <= hi)%nat -> sumr lo hi f = sumr lo mid f + sumr mid hi f.
Proof.
  intros H1 H2. unfold sumr. replace (hi - lo)%nat with ((mid - lo) + (hi - mid))%nat by lia.
  rewrite seq_app, map_app, rsum_app. now replace (lo + (mid - lo))%nat with mid by lia.
Qed.
Lemma sumr_one lo f : sumr lo (S lo) f = f lo.
Proof. unfold sumr. replace (S lo - lo)%nat with 1%nat by lia. cbn [seq map]. change (f lo + 0 = f lo). lra. Qed.
Lemma sumr_zero lo hi f : (forall k, (lo <= k < hi)%nat -> f k = 0) -> sumr lo hi f = 0.
Proof. intros H. unfold sumr. apply rsum_const0. intros k Hk. apply in_seq in Hk. apply H. lia. Qed.
Lemma sumr_tele lo hi (F : nat -> R) : (lo <= hi)%nat -> sumr lo hi (fun j => F j - F (S j)) = F lo - F hi.
Proof.
  intros H. induction H as [|hi H IH]; [rewrite sumr_nil by lia; lra|].
  rewrite (sumr_split lo hi (S hi)) by lia. rewrite IH, sumr_one. lra.
Qed.
Section Obj.
Variables (n : nat) (gs : list group) (X : mat).
Hypothesis Hp : partition n gs.
Hypothesis Hr : describes n gs X.
Lemma teleR_end D s e : In (s, e) gs -> teleR D X e = D e s - D e e.
Proof.
  intros Hin. pose proof (chain_in _ _ _ _ _ Hp Hin) as Hb. unfold teleR. rewrite (sumr_split 0 s e) by lia.
  rewrite (sumr_zero 0 s). 2:{ intros k Hk. rewrite (X_before n gs X Hp Hr s e k Hin) by lia. lra. }
  rewrite <- (sumr_tele s e (fun j => D e j)) by lia. rewrite Rplus_0_l.
  apply sumr_ext. intros k Hk. rewrite (X_in n gs X Hp Hr s e k Hin) by lia. lra.
Qed.
Lemma teleR_other D i : (i < n)%nat -> (forall s, ~ In (s, i) gs) -> teleR D X i = 0.
Proof.
  intros Hi Hno. unfold teleR. apply sumr_zero. intros k Hk. rewrite (X_not_end n gs X Hr i k) by (auto; lia). lra.
Qed.
Lemma sumr_over_ends (F : nat -> R) a m hs : chain a m hs ->
  (forall i, (a <= i < m)%nat -> (forall s, ~ In (s, i) hs) -> F i = 0) ->
  sumr a m F = rsum (map (fun g => F (snd g)) hs).
Proof.
  induction 1 as [m|s e m hs H1 H2 IH]; intros H0; [rewrite sumr_nil by lia; reflexivity|].
  pose proof (chain_le _ _ _ H2). cbn [map snd]. change (sumr s m F = F e + rsum (map (fun g => F (snd g)) hs)).
  rewrite (sumr_split s (S e) m) by lia. rewrite (sumr_split s e (S e)) by lia. rewrite sumr_one.
  rewrite (sumr_zero s e).
  2:{ intros k Hk. apply H0; [lia|]. intros s' [E|Hin]; [injection E as <- <-; lia|].
      apply (chain_in _ _ _ _ _ H2) in Hin. lia. }
  rewrite IH; [lra|]. intros i Hi Hno. apply H0; [lia|].
  intros s' [E|Hin]; [injection E as <- <-; lia|]. now apply Hno in Hin.
Qed.
Lemma objectiveR_groups V : objectiveR n V X = rsum (map (fun g => V (snd g) (fst g)) gs).
Proof.
  unfold objectiveR. rewrite (sumr_over_ends _ 0%nat n gs Hp).
  - apply rsum_ext. intros [s e] Hin. cbn [fst snd]. change (V e e * IZR (X e e) + teleR V X e = V e s).
    rewrite (teleR_end V s e Hin), (diag1 n gs X Hp Hr s e Hin). lra.
  - intros i Hi Hno. change (V i i * IZR (X i i) + teleR V X i = 0).
    rewrite (diag0 n gs X Hr i) by (auto; lia). rewrite teleR_other by (auto; lia). lra.
Qed.
End Obj.

(** *** the two constraint models agree at the exact scale *)
Definition strip (g : cp_cfg) : cp_cfg :=
  {| g_trend := g_trend g; g_min_bins := g_min_bins g; g_max_bins := g_max_bins g; g_min_size := g_min_size g; g_max_size := g_max_size g;
     g_min_ne := g_min_ne g; g_max_ne := g_max_ne g; g_min_e := g_min_e g; g_max_e := g_max_e g; g_md0 := g_md0 g; g_fixed := g_fixed g;
     g_pviol := []; g_dviol := [] |}.
Definition tc_ok (n : nat) (g : cp_cfg) : Prop :=
  forall tc, g_trend g = TPeakHeuristic tc \/ g_trend g = TValleyHeuristic tc -> (tc <= n)%nat.
Section Feas.
Variables (ne ev : list Z) (g : cp_cfg) (X : mat).
Hypothesis Hl : length ne = length ev.
Hypothesis Pn : pos_list ne.
Hypothesis Pe : pos_list ev.
Hypothesis Htc : tc_ok (length ne) g.
Let M := scale_of ne ev.
Lemma trend_exact : trend_constr (length ne) (rate_mat M ne ev) M g X <-> trend_constrR (length ne) (rate_matR ne ev) g X.
Proof.
  apply trend_bridge; [now apply scale_pos| |exact Htc]. intros i j Hi Hj. now apply scale_exact.
Qed.
Lemma feasible_strip : feasibleR (length ne) (rate_matR ne ev) (at0 ne) (at0 ev) g X ->
  feasible (length ne) (rate_mat M ne ev) M (at0 ne) (at0 ev) (strip g) X.
Proof.
  intros (B1 & B2 & B3 & B4 & B5 & B6 & B7 & B8 & B9 & B10 & B11). apply trend_exact in B8.
  refine (conj B1 (conj B2 (conj B3 (conj B4 (conj B5 (conj B6 (conj B7 (conj B8 (conj _ (conj _ B11)))))))))); intros v [].
Qed.
Lemma feasible_unstrip : feasible (length ne) (rate_mat M ne ev) M (at0 ne) (at0 ev) (strip g) X ->
  violation_ineqs (g_pviol g) X -> violation_ineqs (g_dviol g) X ->
  feasibleR (length ne) (rate_matR ne ev) (at0 ne) (at0 ev) g X.
Proof.
  intros (B1 & B2 & B3 & B4 & B5 & B6 & B7 & B8 & B9 & B10 & B11) V1 V2.
  assert (B8' : trend_constrR (length ne) (rate_matR ne ev) g X) by (apply trend_exact; exact B8).
  exact (conj B1 (conj B2 (conj B3 (conj B4 (conj B5 (conj B6 (conj B7 (conj B8' (conj V1 (conj V2 B11)))))))))).
Qed.
Variable gs : list group.
Hypothesis Hn : (0 < length ne)%nat.
Hypothesis Hp : partition (length ne) gs.
Hypothesis Hr : describes (length ne) gs X.
Lemma min_diff_iff md : (violation_constrs (dviol_ofR md ne ev) X) <-> neighbours (apartR md) (rows_of ne ev gs).
Proof.
  assert (E : forall r1 r2, min_diff_test md r1 r2 = false <-> apartR md r1 r2).
  { intros r1 r2. unfold min_diff_test, apartR, rateR. destruct (Rlt_dec _ md); split; intros; try discriminate; try reflexivity; lra. }
  assert (EN : forall l, neighbours (fun r1 r2 => min_diff_test md r1 r2 = false) l <-> neighbours (apartR md) l).
  { induction l as [|a [|b l] IH]; [reflexivity|reflexivity|]. cbn [neighbours] in *. rewrite E, IH. reflexivity. }
  unfold dviol_ofR. destruct (Rlt_dec 0 md) as [Hm|Hm].
  - rewrite <- EN. exact (pvalue_iff PVConsecutive (min_diff_test md) ne ev gs X Hn Hl Hp Hr).
  - split; [intros _|intros _ v []]. assert (A : forall r1 r2, apartR md r1 r2).
    { intros r1 r2. unfold apartR. pose proof (Rabs_pos (rateR r1 - rateR r2)). lra. }
    generalize (rows_of ne ev gs). induction l as [|a [|b l] IH]; cbn [neighbours]; auto.
Qed.
Lemma sound_trend : feasibleR (length ne) (rate_matR ne ev) (at0 ne) (at0 ev) g X -> trend_holds (g_trend g) (rows_of ne ev gs).
Proof.
  intros HF. assert (HF' := feasible_strip HF). destruct HF' as (_ & _ & _ & _ & _ & _ & _ & Ht & _).
  assert (HB : bounded (length ne) (rate_mat M ne ev) M) by (apply rate_mat_bounded; auto; apply Z.lt_le_incl; now apply scale_pos).
  assert (LEs : forall a b, In a gs -> In b gs -> g_le (rate_mat M ne ev) a b -> rate_le (gsum ne a, gsum ev a) (gsum ne b, gsum ev b))
    by (intros; now apply (exact_le ne ev Hl Pn Pe gs Hp)).
  assert (GEs : forall a b, In a gs -> In b gs -> g_ge (rate_mat M ne ev) a b -> rate_ge (gsum ne a, gsum ev a) (gsum ne b, gsum ev b))
    by (intros; now apply (exact_ge ne ev Hl Pn Pe gs Hp)).
  pose proof Htc as Htc'. unfold tc_ok in Htc'.
  unfold trend_constr in Ht. change (g_trend (strip g)) with (g_trend g) in Ht. unfold trend_holds. destruct (g_trend g) as [| | | | | | |tc|tc] eqn:Et.
  - exact I.
  - apply (ascending_iff _ _ _ Hn Hp Hr _ _ HB) in Ht. destruct Ht as [Ht _]. eapply all_pairs_map; [|exact Ht]. exact LEs.
  - apply (descending_iff _ _ _ Hn Hp Hr _ _ HB) in Ht. destruct Ht as [Ht _]. eapply all_pairs_map; [|exact Ht]. exact GEs.
  - eapply all_triples_map; [|exact (triples_all _ _ _ _ Hp (concave_sound _ _ _ Hn Hp Hr _ _ Ht))].
    intros a b c Ha Hb Hc H. cbv beta in H. rewrite !(rate_exact ne ev Hl Pn Pe gs Hp) by assumption. apply (div_scale_le ne ev Hl Pn Pe) in H. fold M in H |- *.
    setoid_replace (inject_Z (at_group (rate_mat M ne ev) a + at_group (rate_mat M ne ev) c) / inject_Z M)%Q
      with (inject_Z (at_group (rate_mat M ne ev) a) / inject_Z M + inject_Z (at_group (rate_mat M ne ev) c) / inject_Z M)%Q in H
      by (rewrite inject_Z_plus; unfold Qdiv; ring).
    setoid_replace (inject_Z (2 * at_group (rate_mat M ne ev) b) / inject_Z M)%Q
      with (2 * (inject_Z (at_group (rate_mat M ne ev) b) / inject_Z M))%Q in H
      by (rewrite inject_Z_mult; unfold Qdiv; change (inject_Z 2) with 2%Q; ring). exact H.
  - eapply all_triples_map; [|exact (triples_all _ _ _ _ Hp (convex_sound _ _ _ Hn Hp Hr _ _ Ht))].
    intros a b c Ha Hb Hc H. cbv beta in H. rewrite !(rate_exact ne ev Hl Pn Pe gs Hp) by assumption. apply (div_scale_le ne ev Hl Pn Pe) in H. fold M in H |- *.
    setoid_replace (inject_Z (at_group (rate_mat M ne ev) a + at_group (rate_mat M ne ev) c) / inject_Z M)%Q
      with (inject_Z (at_group (rate_mat M ne ev) a) / inject_Z M + inject_Z (at_group (rate_mat M ne ev) c) / inject_Z M)%Q in H
      by (rewrite inject_Z_plus; unfold Qdiv; ring).
    setoid_replace (inject_Z (2 * at_group (rate_mat M ne ev) b) / inject_Z M)%Q
      with (2 * (inject_Z (at_group (rate_mat M ne ev) b) / inject_Z M))%Q in H
      by (rewrite inject_Z_mult; unfold Qdiv; change (inject_Z 2) with 2%Q; ring). exact H.
  - apply (peak_iff _ _ _ Hn Hp Hr _ _ HB) in Ht. eapply up_down_map; [|exact Ht]. exact LEs.
  - apply (valley_iff _ _ _ Hn Hp Hr _ _ HB) in Ht. eapply up_down_map; [|exact Ht]. exact GEs.
  - apply (peak_heuristic_sound _ _ _ Hn Hp Hr _ _ HB) in Ht; [|apply Htc'; now left]. eapply up_down_map; [|exact Ht]. exact LEs.
  - apply (valley_heuristic_sound _ _ _ Hn Hp Hr _ _ HB) in Ht; [|apply Htc'; now right]. eapply up_down_map; [|exact Ht]. exact GEs.
Qed.
Lemma sound_request pol test md : feasibleR (length ne) (rate_matR ne ev) (at0 ne) (at0 ev) g X ->
  g_pviol g = pviol_of pol test ne ev -> g_dviol g = dviol_ofR md ne ev -> request_met ne ev gs g pol test md.
Proof.
  intros HF Epv Edv. assert (HT := sound_trend HF). assert (HF' := feasible_strip HF).
  destruct (sound_sizes _ _ _ _ _ _ Hn Hl Hp Hr HF') as [HB HS]. cbn [strip g_min_bins g_max_bins g_min_size g_max_size g_min_ne g_max_ne g_min_e g_max_e] in HB, HS.
  destruct HF as (B1 & _ & _ & _ & _ & _ & _ & _ & B9 & B10 & B11).
  rewrite Epv in B9. rewrite Edv in B10.
  apply (viols_bridge (length ne) _ X B1) in B9; [|intros v Hv; now apply pviol_range in Hv].
  apply (viols_bridge (length ne) _ X B1) in B10; [|intros v Hv; now apply dviol_range in Hv].
  rewrite Forall_forall in HS. constructor; try assumption.
  - apply Forall_forall. intros r Hin. apply HS in Hin. tauto.
  - apply Forall_forall. intros r Hin. apply HS in Hin. tauto.
  - apply Forall_forall. intros r Hin. apply HS in Hin. tauto.
  - exact (proj1 (pvalue_iff pol test ne ev gs X Hn Hl Hp Hr) B9).
  - now apply min_diff_iff.
  - apply (fixed_iff _ _ _ Hn Hp Hr). exact B11.
Qed.
(** trends for which every valid partition is accepted *)
Definition complete_trend (t : trend) : Prop :=
  match t with TNone | TAscending | TDescending | TPeak | TValley => True | _ => False end.
Lemma complete_request pol test md : g_md0 g = false -> complete_trend (g_trend g) ->
  g_pviol g = pviol_of pol test ne ev -> g_dviol g = dviol_ofR md ne ev -> request_met ne ev gs g pol test md ->
  feasibleR (length ne) (rate_matR ne ev) (at0 ne) (at0 ev) g X.
Proof.
  intros Hmd Hct Epv Edv [R1 R2 R3 R4 R5 R6 R7 R8].
  assert (B1 : bool_vars (length ne) X) by (destruct (represents_structural _ _ _ Hp Hr) as (S1 & _); exact S1).
  apply feasible_unstrip.
  - apply (feasible_complete ne ev gs M (strip g) PVNone test None X); auto; [now apply scale_pos|].
    constructor; try assumption; cbn [strip g_trend g_fixed].
    + destruct (g_trend g); try exact R1; destruct Hct.
    + exact I.
    + discriminate.
  - rewrite Epv. apply (viols_bridge (length ne) _ X B1); [intros v Hv; now apply pviol_range in Hv|].
    exact (proj2 (pvalue_iff pol test ne ev gs X Hn Hl Hp Hr) R6).
  - rewrite Edv. apply (viols_bridge (length ne) _ X B1); [intros v Hv; now apply dviol_range in Hv|]. now apply min_diff_iff.
Qed.
End Feas.
Lemma mip_vector_01 n X : bool_vars n X -> mip_vector (map (fun i => IZR (X i i)) (seq 0 n)) = solution_vector n (Solved X).
Proof.
  intros HB. unfold mip_vector, solution_vector. rewrite map_map. apply map_ext_in. intros i Hi. apply in_seq in Hi.
  destruct (HB i i ltac:(lia) (le_n _)) as [E|E]; rewrite E; destruct (Req_EM_T _ 0) as [e|e]; try reflexivity; exfalso; lra.
Qed.
