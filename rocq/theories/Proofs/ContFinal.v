(** Continuous target: table rows of a fit (C27). *)
From Coq Require Import List ZArith Bool Arith Lia QArith Qabs Sorting Permutation Reals Lra.
From Verif Require Import Model.Arr Model.Core Model.CP Model.Cont Spec.CoreSpec Spec.CPSpec Spec.CPFitSpec Spec.ContSpec
  Proofs.ArrP Proofs.CoreP Proofs.FitP Proofs.CoreFinal Proofs.CPP Proofs.CPC Proofs.CPTable Proofs.CPFinal Proofs.ContP Proofs.ContC.
Import ListNotations.
Open Scope Z_scope.

Lemma zsum_cons a l : zsum (a :: l) = a + zsum l.
Proof. reflexivity. Qed.
(** * Standard deviation *)
Section Std.
Open Scope R_scope.
Lemma rtotal_app a b : rtotal (a ++ b) = rtotal a + rtotal b.
Proof. induction a as [|x a IH]; cbn [app rtotal]; [lra|]. rewrite IH. lra. Qed.
Lemma rtotal_perm a b : Permutation a b -> rtotal a = rtotal b.
Proof. induction 1; cbn [rtotal]; lra. Qed.
Lemma rtotal_IZR l : rtotal (map IZR l) = IZR (zsum l).
Proof. induction l as [|x l IH]; cbn [map rtotal]; [reflexivity|]. rewrite zsum_cons, plus_IZR, IH. reflexivity. Qed.
Lemma population_std_perm a b : Permutation a b -> population_std a = population_std b.
Proof.
  intros H. assert (E : average a = average b) by (unfold average; rewrite (rtotal_perm _ _ H), (Permutation_length H); reflexivity).
  unfold population_std. rewrite E. f_equal. generalize (average b). clear E. intros m. unfold average.
  rewrite !map_length, (Permutation_length H). f_equal. apply rtotal_perm, Permutation_map, H.
Qed.
Lemma rtotal_dev m l : rtotal (map (fun v => (v - m) * (v - m)) (map IZR l)) =
  IZR (zsum (map (fun v => (v * v)%Z) l)) - 2 * m * IZR (zsum l) + INR (length l) * (m * m).
Proof.
  induction l as [|x l IH]; [cbn [map rtotal length]; change (zsum []) with 0%Z; cbn [INR]; lra|].
  cbn [map rtotal]. rewrite IH, !zsum_cons, !plus_IZR, mult_IZR. cbn [length]. rewrite S_INR. ring.
Qed.
Lemma moments_std l : l <> [] ->
  sqrt (IZR (zsum (map (fun v => (v * v)%Z) l)) / IZR (Z.of_nat (length l)) - (IZR (zsum l) / IZR (Z.of_nat (length l))) ^ 2)
  = population_std (map IZR l).
Proof.
  intros Hl. unfold population_std. f_equal. unfold average at 1. rewrite rtotal_dev, !map_length.
  unfold average. rewrite rtotal_IZR, map_length, <- INR_IZR_INZ.
  assert (INR (length l) <> 0) by (destruct l; [congruence|]; apply not_0_INR; discriminate). field. assumption.
Qed.
End Std.

(** * Records of a row *)
Lemma in_row_clean sp splits k r : nondecreasing splits ->
  in_row sp splits k r <-> k_clean sp r = true /\ digitize splits (s_x (to_ksample r)) = k.
Proof.
  intros Hs. unfold in_row, k_clean, k_missing, k_special, to_ksample. cbn [s_x]. split.
  - intros (z & y & E1 & E2 & Hc & Hb). rewrite E1, E2. cbn [x_isnull orb negb andb num]. split.
    + destruct sp; [reflexivity| |]; rewrite negb_true_iff; apply not_true_is_false; rewrite isin_In; exact Hc.
    + eapply in_bin_unique; [exact Hs|apply digitize_in_bin; exact Hs|exact Hb].
  - intros [H1 H2]. apply andb_true_iff in H1. destruct H1 as [H1 H3]. apply negb_true_iff, orb_false_iff in H1. destruct H1 as [Hx Hy].
    destruct (k_x r) as [|z]; [discriminate|]. destruct (k_y r) as [y|]; [|discriminate].
    exists z, y. split; [reflexivity|]. split; [reflexivity|]. cbn [num] in H2. split; [|rewrite <- H2; apply digitize_in_bin; exact Hs].
    destruct sp; [intros []| |]; apply negb_true_iff in H3; rewrite <- isin_In; now rewrite H3.
Qed.
Lemma row_records sp splits k p rs : nondecreasing splits -> (forall r, p r = true <-> in_row sp splits k r) ->
  bin_records splits (c_data sp rs) k = map to_ksample (filter p rs).
Proof.
  intros Hs Hp. unfold bin_records, c_data. induction rs as [|r rs IH]; [reflexivity|]. cbn [filter].
  specialize (Hp r). rewrite (in_row_clean sp splits k r Hs) in Hp.
  destruct (k_clean sp r) eqn:Ec; cbn [map filter].
  - destruct (Nat.eqb_spec (digitize splits (s_x (to_ksample r))) k) as [E|E].
    + rewrite (proj2 Hp (conj eq_refl E)). cbn [map]. f_equal. exact IH.
    + destruct (p r); [destruct (proj1 Hp eq_refl); contradiction|]. exact IH.
  - destruct (p r); [destruct (proj1 Hp eq_refl); discriminate|]. exact IH.
Qed.
Lemma to_ksample_p r : s_p (to_ksample r) = wtarget r.
Proof. unfold to_ksample, wtarget, k_target, k_prod. cbn [s_p]. destruct (k_y r); cbn; lia. Qed.
Lemma count_true_perm a b : Permutation a b -> count_true a = count_true b.
Proof. induction 1 as [|x a b H IH|x y a|a b c H1 IH1 H2 IH2]; try reflexivity; [destruct x; cbn; congruence|destruct x, y; reflexivity|congruence]. Qed.
Lemma is_min_perm m a b : Permutation a b -> is_min m a -> is_min m b.
Proof. intros H [H1 H2]. split; [eapply Permutation_in; eauto|]. intros x Hx. apply H2. eapply Permutation_in; [symmetry|]; eauto. Qed.
Lemma is_max_perm m a b : Permutation a b -> is_max m a -> is_max m b.
Proof. intros H [H1 H2]. split; [eapply Permutation_in; eauto|]. intros x Hx. apply H2. eapply Permutation_in; [symmetry|]; eauto. Qed.

Lemma stat_exact (row : trow) (l : list ksample) (krs : list krec) : l <> [] -> Permutation l (map to_ksample krs) ->
  (row = row_of_list l \/ row = single_row l) -> row_exact row krs.
Proof.
  intros Hl HP Hrow.
  assert (Pp : Permutation (map s_p l) (map wtarget krs)).
  { rewrite (Permutation_map s_p HP), map_map. erewrite map_ext; [reflexivity|]. intros; apply to_ksample_p. }
  assert (Pw : Permutation (map s_w l) (map k_w krs)).
  { rewrite (Permutation_map s_w HP), map_map. reflexivity. }
  assert (Hne : map s_p l <> []) by (destruct l; [congruence|discriminate]).
  assert (B : r_n row = c_n (stat_of l) /\ r_sum row = Some (c_sum (stat_of l)) /\ r_zero row = c_zero (stat_of l) /\
              r_min row = c_min (stat_of l) /\ r_max row = c_max (stat_of l) /\
              (r_std row = ByMoments (c_sum (stat_of l)) (c_ss (stat_of l)) (c_n (stat_of l)) \/ r_std row = NpStd (map s_p l))).
  { destruct Hrow as [-> | ->]; cbn; auto 10. }
  destruct B as (B1 & B2 & B3 & B4 & B5 & B6). constructor.
  - rewrite B1. cbn [stat_of c_n]. now apply zsum_perm.
  - rewrite B2. cbn [stat_of c_sum]. now rewrite (zsum_perm _ _ Pp).
  - rewrite B3. cbn [stat_of c_zero]. f_equal. rewrite (count_true_perm _ _ (Permutation_map (Z.eqb 0) Pp)). clear.
    induction krs as [|r krs IH]; [reflexivity|]. cbn [map count_true filter]. rewrite (Z.eqb_sym 0).
    destruct (wtarget r =? 0); cbn [length]; rewrite IH; reflexivity.
  - rewrite B4. cbn [stat_of c_min]. exists (np_min (map s_p l)). split; [destruct (map s_p l); [congruence|reflexivity]|].
    eapply is_min_perm; [exact Pp|]. now apply np_min_spec.
  - rewrite B5. cbn [stat_of c_max]. exists (np_max (map s_p l)). split; [destruct (map s_p l); [congruence|reflexivity]|].
    eapply is_max_perm; [exact Pp|]. now apply np_max_spec.
  - intros H1. rewrite <- (population_std_perm _ _ (Permutation_map IZR Pp)).
    destruct B6 as [-> | ->]; [|reflexivity]. cbn [std_value]. f_equal.
    assert (E : c_n (stat_of l) = Z.of_nat (length (map s_p l))).
    { cbn [stat_of c_n]. rewrite (zsum_perm _ _ Pw), (Permutation_length Pp), map_length. clear - H1.
      induction krs as [|r krs IH]; [reflexivity|]. cbn [map length]. rewrite zsum_cons, (H1 r) by now left.
      rewrite IH by (intros; apply H1; now right). lia. }
    rewrite E. cbn [stat_of c_sum c_ss]. now apply moments_std.
Qed.

Theorem cont_rows old solver sp fixed user splits0 rs f :
  nondecreasing splits0 -> c_solver_ok solver ->
  fit_cont old solver sp fixed user splits0 rs = Some (Ok f) ->
  nondecreasing (cf_splits f) /\
  forall k p, (k <= length (cf_splits f))%nat -> (forall r, p r = true <-> in_row sp (cf_splits f) k r) ->
  exists row, nth_error (cf_rows f) k = Some row /\ filter p rs <> [] /\ row_exact row (filter p rs).
Proof.
  intros Hs Hok Hf. destruct (fit_rows_records _ _ _ _ _ _ _ _ Hs Hok Hf) as (Hn & _ & HK). split; [exact Hn|].
  intros k p Hk Hp. destruct (HK k Hk) as (l & row & E & HP & Hl & Hrow). exists row. split; [exact E|].
  rewrite (row_records sp _ k p rs Hn Hp) in HP. split.
  - intros En. rewrite En in HP. cbn in HP. symmetry in HP. apply Permutation_nil in HP. contradiction.
  - eapply stat_exact; eauto.
Qed.
