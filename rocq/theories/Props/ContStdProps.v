(** C27, continued: the Std column under sample weights. *)
From Coq Require Import List ZArith Bool Arith Lia QArith Qabs Sorting Permutation Reals Lra.
From Verif Require Import Model.Arr Model.Core Model.CP Model.Cont Spec.CoreSpec Spec.CPSpec Spec.CPFitSpec Spec.ContSpec Spec.ContStdSpec
  Proofs.ArrP Proofs.CoreP Proofs.FitP Proofs.CoreFinal Proofs.CPP Proofs.CPC Proofs.CPTable Proofs.CPFinal Proofs.ContP Proofs.ContC Proofs.ContFinal Props.ContProps.
Import ListNotations.
Open Scope Z_scope.

(** ** rows of a fit with at least one proposed split come from the moments *)
Lemma merge_moments : forall sol acc st rows, merge_stats acc sol st = Some rows -> forall r, In r rows -> exists s ss n, r_std r = ByMoments s ss n.
Proof.
  induction sol as [|b s IH]; intros acc st rows H r Hr; cbn [merge_stats] in H; [injection H as <-; destruct Hr|]. destruct st as [|c st]; [discriminate|]. destruct b.
  - destruct (merge_stats acc0 s st) as [rows'|] eqn:E; [|discriminate]. cbn in H. injection H as <-. destruct Hr as [<-|Hr]; [cbn; eauto|]. eapply IH; eassumption.
  - eapply IH; eassumption.
Qed.
Lemma split_rows old solver sp fixed user splits0 rs f :
  nondecreasing splits0 -> splits0 <> [] -> c_solver_ok solver -> fit_cont old solver sp fixed user splits0 rs = Some (Ok f) ->
  nondecreasing (cf_splits f) /\
  forall k, (k <= length (cf_splits f))%nat -> exists l, nth_error (cf_rows f) k = Some (row_of_list l) /\ Permutation l (bin_records (cf_splits f) (c_data sp rs) k).
Proof.
  intros Hs Hne Hok Hf. destruct (fit_rows_records _ _ _ _ _ _ _ _ Hs Hok Hf) as (Hn & _ & HK). split; [exact Hn|]. intros k Hk. destruct (HK k Hk) as (l & r & E & P & Hl & [->| ->]); [eauto|exfalso].
  destruct (fit_cont_inv _ _ _ _ _ _ _ _ Hf) as (srows & Hsr & Href & [C|C]); [destruct C as (_ & _ & C & _); congruence|]. destruct C as (R & Hsol & Hspl & Hrows).
  assert (Hlen : (2 <= length (cp_stats (cf_prebins f)))%nat).
  { rewrite (rc_stats _ _ _ R), length_stats. pose proof (rc_ne _ _ _ R). destruct (cp_splits (cf_prebins f)); [congruence|]. cbn; lia. }
  destruct (Hok _ Hlen) as [Hsl Hlast]. rewrite <- Hsol in Hsl, Hlast. rewrite (rc_stats _ _ _ R), length_stats in Hsl.
  destruct Hrows as (rows & Hm & Hr); [intros G; rewrite G in Hsl; cbn in Hsl; lia|]. pose proof (merge_moments _ _ _ _ Hm) as M. rewrite (rc_stats _ _ _ R) in Hm.
  assert (Hn' : nondecreasing (cp_splits (cf_prebins f))) by (eapply subseq_nondecr; [apply (rc_sub _ _ _ R)|exact Hs]).
  destruct (merge_stats_bins _ _ _ _ Hn' Hsl Hlast (fun i Hi => refined_bins _ _ _ i R Hi) Hm) as [HL _]. rewrite <- Hspl in HL.
  rewrite Hr, nth_error_app1 in E by lia. apply nth_error_In, M in E as (s & ss & n & E). discriminate.
Qed.

(** ** the variance of the code and the weighted variance *)
Open Scope R_scope.
Lemma weight_total krs : rtotal (map weight krs) = IZR (zsum (map k_w krs)).
Proof. rewrite <- rtotal_IZR, map_map. reflexivity. Qed.
Lemma wsum_total krs : rtotal (map (fun r => weight r * target r) krs) = IZR (zsum (map wtarget krs)).
Proof. rewrite <- rtotal_IZR, map_map. f_equal. apply map_ext. intros r. unfold weight, target, wtarget. now rewrite mult_IZR. Qed.
Definition second (krs : list krec) : R := rtotal (map (fun r => weight r * (target r * target r)) krs).
Lemma dev_total m krs : rtotal (map (fun r => weight r * ((target r - m) * (target r - m))) krs) =
  second krs - 2 * m * rtotal (map (fun r => weight r * target r) krs) + m * m * rtotal (map weight krs).
Proof. unfold second. induction krs as [|r krs IH]; cbn [map rtotal]; [lra|]. rewrite IH. ring. Qed.
Lemma excess krs : (forall r, In r krs -> (0 <= k_w r)%Z) ->
  second krs <= IZR (zsum (map (fun v => (v * v)%Z) (map wtarget krs))) /\
  (IZR (zsum (map (fun v => (v * v)%Z) (map wtarget krs))) = second krs <-> forall r, In r krs -> (k_w r = 0 \/ k_w r = 1 \/ k_target r = 0)%Z).
Proof.
  unfold second. induction krs as [|r krs IH]; intros H; [cbn; split; [lra|split; [intros _ r []|reflexivity]]|].
  destruct (IH (fun x Hx => H x (or_intror Hx))) as [I1 I2]. cbn [map rtotal]. rewrite zsum_cons, plus_IZR. pose proof (H r (or_introl eq_refl)) as Hw.
  set (A := IZR (zsum _)) in *. set (B := rtotal _) in *.
  assert (E : IZR (wtarget r * wtarget r) - weight r * (target r * target r) = IZR ((k_w r * k_w r - k_w r) * (k_target r * k_target r))%Z).
  { unfold wtarget, weight, target. rewrite !mult_IZR, minus_IZR, mult_IZR. ring. }
  assert (P : (0 <= (k_w r * k_w r - k_w r) * (k_target r * k_target r))%Z) by (apply Z.mul_nonneg_nonneg; [nia|nia]).
  assert (P' := IZR_le _ _ P). split; [lra|]. split.
  - intros G x [->|Hx].
    + assert (Z0 : IZR ((k_w x * k_w x - k_w x) * (k_target x * k_target x))%Z = 0) by lra. apply eq_IZR in Z0. apply Z.mul_eq_0 in Z0 as [Z0|Z0]; [|right; right; nia].
      assert (Z1 : (k_w x * (k_w x - 1) = 0)%Z) by lia. apply Z.mul_eq_0 in Z1 as [Z1|Z1]; [now left|right; left; lia].
    + apply I2; [lra|exact Hx].
  - intros G. assert (Z0 : ((k_w r * k_w r - k_w r) * (k_target r * k_target r) = 0)%Z) by (destruct (G r (or_introl eq_refl)) as [->|[->| ->]]; ring).
    rewrite Z0 in E. assert (A = B) by (apply I2; intros x Hx; apply G; now right). lra.
Qed.
Lemma row_std krs l : Permutation l (map to_ksample krs) -> std_value (r_std (row_of_list l)) =
  Some (sqrt (IZR (zsum (map (fun v => (v * v)%Z) (map wtarget krs))) / IZR (zsum (map k_w krs)) - (IZR (zsum (map wtarget krs)) / IZR (zsum (map k_w krs))) ^ 2)) /\
  (IZR (zsum (map k_w krs)) <> 0 -> 0 <= IZR (zsum (map (fun v => (v * v)%Z) (map wtarget krs))) / IZR (zsum (map k_w krs)) - (IZR (zsum (map wtarget krs)) / IZR (zsum (map k_w krs))) ^ 2 -> std_is_number (r_std (row_of_list l))).
Proof.
  intros HP. assert (Pp : Permutation (map s_p l) (map wtarget krs)).
  { rewrite (Permutation_map s_p HP), map_map. erewrite map_ext; [reflexivity|]. intros; apply to_ksample_p. }
  assert (Pw : Permutation (map s_w l) (map k_w krs)) by (rewrite (Permutation_map s_w HP), map_map; reflexivity).
  cbn [row_of_list r_std std_value std_is_number stat_of c_sum c_ss c_n]. rewrite (zsum_perm _ _ Pw), (zsum_perm _ _ Pp), (zsum_perm _ _ (Permutation_map (fun v => (v * v)%Z) Pp)). split; [reflexivity|]. intros A B. split; assumption.
Qed.

(** With weights >= 0, not all 0 in the bin: the Std entry of a row is a number, is never smaller than the weighted standard deviation of
    the records of its bin, and equals it exactly when every record has weight 0 or 1 or target 0. *)
Theorem C27_weighted_std old solver sp fixed user splits0 rs f :
  nondecreasing splits0 -> splits0 <> [] -> c_solver_ok solver -> fit_cont old solver sp fixed user splits0 rs = Some (Ok f) ->
  forall k p, (k <= length (cf_splits f))%nat -> (forall r, p r = true <-> in_row sp (cf_splits f) k r) ->
  (forall r, In r (filter p rs) -> (0 <= k_w r)%Z) -> (exists r, In r (filter p rs) /\ (0 < k_w r)%Z) ->
  exists row v, nth_error (cf_rows f) k = Some row /\ std_is_number (r_std row) /\ std_value (r_std row) = Some v /\
    weighted_std (filter p rs) <= v /\
    (v = weighted_std (filter p rs) <-> forall r, In r (filter p rs) -> (k_w r = 0 \/ k_w r = 1 \/ k_target r = 0)%Z).
Proof.
  intros Hs Hne Hok Hf k p Hk Hp Hw (r0 & Hr0 & Hw0). destruct (split_rows _ _ _ _ _ _ _ _ Hs Hne Hok Hf) as [Hn HK]. destruct (HK k Hk) as (l & E & HP).
  rewrite (row_records sp _ k p rs Hn Hp) in HP. set (krs := filter p rs) in *. destruct (row_std krs l HP) as [V N].
  set (W := IZR (zsum (map k_w krs))) in *. set (S := IZR (zsum (map wtarget krs))) in *. set (SS := IZR (zsum (map (fun v => (v * v)%Z) (map wtarget krs)))) in *.
  assert (HW : 0 < W).
  { apply IZR_lt. clear - Hw Hr0 Hw0. revert Hr0 Hw. induction krs as [|r krs IH]; intros Hr0 Hw; [destruct Hr0|]. cbn [map]. rewrite zsum_cons. pose proof (Hw r (or_introl eq_refl)).
    assert (H0 : (0 <= zsum (map k_w krs))%Z). { assert (G : forall x, In x krs -> (0 <= k_w x)%Z) by (intros x Hx; apply Hw; now right). clear - G. induction krs as [|x krs IH]; [cbn; lia|]. cbn [map]. rewrite zsum_cons. pose proof (G x (or_introl eq_refl)). assert (0 <= zsum (map k_w krs))%Z by (apply IH; intros y Hy; apply G; now right). lia. }
    destruct Hr0 as [->|Hr0]; [lia|]. assert (0 < zsum (map k_w krs))%Z by (apply IH; [exact Hr0|intros x Hx; apply Hw; now right]). lia. }
  destruct (excess krs Hw) as [X1 X2]. fold SS in X1, X2.
  assert (WV : rtotal (map (fun r => weight r * ((target r - weighted_mean krs) * (target r - weighted_mean krs))) krs) / rtotal (map weight krs) = second krs / W - (S / W) ^ 2).
  { rewrite dev_total, weight_total. unfold weighted_mean. rewrite wsum_total, weight_total. fold W S. field. lra. }
  assert (G0 : 0 <= second krs / W - (S / W) ^ 2).
  { rewrite <- WV. rewrite weight_total. fold W. apply Rmult_le_pos; [|left; now apply Rinv_0_lt_compat]. clear - Hw. generalize (weighted_mean krs). intros m. induction krs as [|r krs IH]; cbn [map rtotal]; [lra|].
    assert (0 <= weight r) by (apply IZR_le, Hw; now left). assert (0 <= weight r * ((target r - m) * (target r - m))) by (apply Rmult_le_pos; [assumption|apply Rle_0_sqr]).
    assert (0 <= rtotal (map (fun r => weight r * ((target r - m) * (target r - m))) krs)) by (apply IH; intros x Hx; apply Hw; now right). lra. }
  assert (L : second krs / W - (S / W) ^ 2 <= SS / W - (S / W) ^ 2).
  { apply Rplus_le_compat_r. apply Rmult_le_compat_r; [left; now apply Rinv_0_lt_compat|exact X1]. }
  eexists. eexists. split; [exact E|]. split; [apply N; [lra|eapply Rle_trans; [exact G0|exact L]]|]. split; [exact V|].
  unfold weighted_std. rewrite WV. split; [now apply sqrt_le_1_alt|]. rewrite <- X2. split.
  - intros G. apply sqrt_inj in G; [|eapply Rle_trans; [exact G0|exact L]|exact G0].
    assert (G' : SS / W = second krs / W) by lra. apply (f_equal (fun t => t * W)) in G'. unfold Rdiv in G'. rewrite !Rmult_assoc, Rinv_l in G' by lra. lra.
  - intros G. rewrite G. reflexivity.
Qed.
Print Assumptions C27_weighted_std.

(** Refuted: the same bound when prebinning finds no split. The single bin reports the deviation of the products of weight and target:
    here 0, although the records differ. *)
Theorem C27_unsplit_std_refuted : exists f row v, fit_cont fresh all_true SpNone None None [] [kr 1 2 1; kr 1 1 2]%Z = Some (Ok f) /\
  nth_error (cf_rows f) 0 = Some row /\ std_value (r_std row) = Some v /\ v = 0 /\ 0 < weighted_std [kr 1 2 1; kr 1 1 2]%Z.
Proof.
  eexists. eexists. eexists. split; [reflexivity|]. split; [reflexivity|]. split; [reflexivity|]. split.
  - unfold population_std, average; cbn [map rtotal length INR s_p to_ksample kr k_w k_y k_prod option_map]. match goal with |- sqrt ?x = _ => replace x with 0 by (cbn; field) end. exact sqrt_0.
  - unfold weighted_std, weighted_mean, weight, target; cbn [map rtotal kr k_w k_y k_target]. apply sqrt_lt_R0. match goal with |- 0 < ?x => replace x with (2 / 9) by field end. lra.
Qed.
Print Assumptions C27_unsplit_std_refuted.

Example C27_weighted_std_hyps_met : exists f, fit_cont fresh all_true SpNone None None [4]%Z [kr 1 3 2; kr 2 5 1; kr 5 7 1]%Z = Some (Ok f) /\ nondecreasing [4]%Z /\ [4]%Z <> [] /\ c_solver_ok all_true /\ cf_splits f = [4]%Z.
Proof. eexists. split; [reflexivity|]. split; [repeat constructor|]. split; [discriminate|]. split; [exact all_true_ok|reflexivity]. Qed.
