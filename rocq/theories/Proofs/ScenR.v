(** Scenario-based binning: the requests hold in every scenario, completeness, objective, weights. *)
From Coq Require Import List ZArith Bool Arith Lia QArith Qround Sorting.
From Verif Require Import Model.Arr Model.Core Model.CP Model.Multi Model.Lifecycle Model.Scenario
  Spec.CoreSpec Spec.CPSpec Spec.CPFitSpec Spec.ScenarioSpec
  Proofs.ArrP Proofs.CoreP Proofs.FitP Proofs.CoreFinal Proofs.CPP Proofs.CPC Proofs.CPTable Proofs.CPFinal
  Proofs.MultiP Proofs.MultiFinal Proofs.LifeR Proofs.ScenP Proofs.ScenQ.
Import ListNotations.
Open Scope Z_scope.

Definition scen_cfg (g : sc_cfg) (pr : sb_problem) (M : Z) (c : list Z * list Z) : cp_cfg :=
  {| g_trend := match sg_trend g with TPeak | TValley | TPeakHeuristic _ | TValleyHeuristic _ => TNone | t => t end;
     g_min_bins := sg_min_bins g; g_max_bins := sg_max_bins g;
     g_min_size := None; g_max_size := None; g_min_ne := None; g_max_ne := None; g_min_e := None; g_max_e := None;
     g_md0 := false; g_fixed := pr_fixed pr;
     g_pviol := pviol_of (sg_pol g) (sg_test g) (fst c) (snd c); g_dviol := dviol_of (sg_md g) M (fst c) (snd c) |}.
Lemma sc_feasible_one n M pr g X c : sc_feasible n M pr g X -> In c (pr_cols pr) ->
  feasible n (rate_mat M (fst c) (snd c)) M (at0 (fst c)) (at0 (snd c)) (scen_cfg g pr M c) X.
Proof.
  intros (B1 & B2 & B3 & B4 & B5 & B6 & B7 & B8 & B9) Hc. rewrite Forall_forall in B7, B8.
  unfold feasible. repeat (split; [assumption|]).
  split; [exact I|]. split; [intros i _; split; intros ? [=]|]. split; [intros i _; split; intros ? [=]|].
  split; [|split; [exact (B7 c Hc)|split; [exact (B8 c Hc)|exact B9]]].
  unfold trend_constr, scen_cfg. cbn [g_trend g_md0]. unfold sc_trend in B6. cbv zeta in B6.
  destruct (sg_trend g); try exact I; try (rewrite Forall_forall in B6; exact (B6 c Hc)).
Qed.

Lemma ceil_le_iff q k : Qceiling q <= k <-> (q <= inject_Z k)%Q.
Proof.
  split; intros H.
  - eapply Qle_trans; [apply Qle_ceiling|]. rewrite <- Zle_Qle. exact H.
  - apply Qceiling_resp_le in H. rewrite Qceiling_Z in H. exact H.
Qed.
Lemma le_ceil_lt q k : k <= Qceiling q -> (inject_Z k < q + 1)%Q.
Proof.
  intros H. apply Qle_lt_trans with (inject_Z (Qceiling q)); [rewrite <- Zle_Qle; exact H|].
  setoid_replace (inject_Z (Qceiling q)) with (inject_Z (Qceiling q - 1) + 1)%Q; [apply Qplus_lt_l; apply Qceiling_lt|].
  change 1%Q with (inject_Z 1). rewrite <- inject_Z_plus. replace (Qceiling q - 1 + 1)%Z with (Qceiling q) by lia. reflexivity.
Qed.
Lemma le_le_ceil q k : (inject_Z k <= q)%Q -> k <= Qceiling q.
Proof. intros H. apply Qceiling_resp_le in H. rewrite Qceiling_Z in H. exact H. Qed.

Lemma Forall2_nth {A B} (R : A -> B -> Prop) a : forall b, Forall2 R a b -> forall i x y, nth_error a i = Some x -> nth_error b i = Some y -> R x y.
Proof. intros b H. induction H as [|p q a b HR H IH]; intros [|i] x y Hx Hy; cbn in *; try discriminate; [congruence|eauto]. Qed.

Definition size_ok (g : sc_cfg) (len : Z) (r : Z * Z) : Prop :=
  (forall q, sg_min_size g = Some q -> (q * inject_Z len <= inject_Z (records r))%Q) /\
  (forall q, sg_max_size g = Some q -> (inject_Z (records r) < q * inject_Z len + 1)%Q).

Lemma s_requests e o X w f M g Xm : sb_env_ok e -> (forall s, In s X -> scen_valid s) -> 0 < M ->
  s_fit e o X w f -> s_solved e f M g Xm ->
  let tabs := map (bins_of f) (sf_tables f) in
  within (sg_min_bins g) (sg_max_bins g) (Z.of_nat (S (length (sf_splits f)))) /\
  s_trend_holds M (sg_trend g) tabs /\
  Forall (pvalue_ok (sg_pol g) (sg_test g)) tabs /\
  (forall k, sg_md g = Some k -> Forall (neighbours (apart_res M k)) tabs) /\
  (forall s sc rows, nth_error X s = Some sc -> nth_error tabs s = Some rows ->
     Forall (size_ok g (Z.of_nat (length (fst sc)))) rows) /\
  (forall rows, In rows tabs -> length rows = S (length (sf_splits f)) /\ Forall (fun r => 0 < fst r /\ 0 < snd r) rows).
Proof.
  intros K HV HM F HX. destruct (s_groups _ _ _ _ _ _ _ _ K HV F HX) as (gs & Hp & Hr & Hlg & _ & Lc & Hcols & ET). cbv zeta in *.
  set (n := S (length (mp_splits (sf_prebins f)))) in *. assert (Hn : (0 < n)%nat) by (unfold n; lia).
  destruct HX as [Hsol HF]. fold n in HF. pose proof HF as (B1 & B2 & B3 & B4 & B5 & B6 & B7 & B8 & B9).
  rewrite ET.
  split; [rewrite <- Hlg; now apply (min_max_bins_iff _ _ _ Hn Hp Hr)|].
  assert (BD : forall c, In c (pr_cols (sf_problem f)) -> bounded n (rate_mat M (fst c) (snd c)) M).
  { intros c Hc. destruct (Hcols c Hc) as (L1 & L2 & P1 & P2). rewrite <- L1. apply rate_mat_bounded; auto; lia. }
  assert (FC : forall (P : list (Z * Z) -> Prop), (forall c, In c (pr_cols (sf_problem f)) -> P (rows_of (fst c) (snd c) gs)) ->
     Forall P (map (fun c => rows_of (fst c) (snd c) gs) (pr_cols (sf_problem f)))).
  { intros P H. rewrite Forall_map, Forall_forall. exact H. }
  assert (LEc : forall c, In c (pr_cols (sf_problem f)) -> forall a b, In a gs -> In b gs -> g_le (rate_mat M (fst c) (snd c)) a b ->
     rate_le_res M (gsum (fst c) a, gsum (snd c) a) (gsum (fst c) b, gsum (snd c) b)).
  { intros c Hc a b Ha Hb Hg. destruct (Hcols c Hc) as (L1 & L2 & P1 & P2).
    apply (g_le_rate (fst c) (snd c) gs M); auto; [lia|]. rewrite L1. exact Hp. }
  split; [|split; [|split; [|split]]].
  - unfold s_trend_holds, sc_trend in *. cbv zeta in B6.
    destruct (sg_trend g) eqn:Et; try exact I.
    1,2,3,4: apply FC; intros c Hc; destruct (Hcols c Hc) as (L1 & L2 & P1 & P2);
      pose proof (sc_feasible_one _ _ _ _ _ _ HF Hc) as FX; rewrite <- L1 in FX, Hp, Hr;
      assert (Hn' : (0 < length (fst c))%nat) by lia; assert (Hll : length (fst c) = length (snd c)) by lia.
    + eapply (sound_asc _ _ M _ Xm gs Hn' Hll Hp Hr FX HM P1 P2). cbn [scen_cfg g_trend]. now rewrite Et.
    + eapply (sound_desc _ _ M _ Xm gs Hn' Hll Hp Hr FX HM P1 P2). cbn [scen_cfg g_trend]. now rewrite Et.
    + eapply (sound_concave _ _ M _ Xm gs Hn' Hll Hp Hr FX HM P1 P2). cbn [scen_cfg g_trend]. now rewrite Et.
    + eapply (sound_convex _ _ M _ Xm gs Hn' Hll Hp Hr FX HM P1 P2). cbn [scen_cfg g_trend]. now rewrite Et.
    + destruct B6 as (y & p & Hcp & HB). destruct (peak_bends n gs Xm M Hn Hp Hr y p Hcp) as (k & Hk). exists k. apply FC. intros c Hc.
      rewrite Forall_forall in HB. unfold rows_of. eapply bends_map; [apply (LEc c Hc)|]. apply (Hk (rate_mat M (fst c) (snd c))); [now apply BD|exact (HB c Hc)].
    + destruct B6 as (y & p & Hcp & HB). destruct (valley_bends n gs Xm M Hn Hp Hr y p Hcp) as (k & Hk). exists k. apply FC. intros c Hc.
      rewrite Forall_forall in HB. unfold rows_of. eapply bends_map; [|apply (Hk (rate_mat M (fst c) (snd c))); [now apply BD|exact (HB c Hc)]].
      intros a b Ha Hb. apply (LEc c Hc); assumption.
  - apply FC. intros c Hc. destruct (Hcols c Hc) as (L1 & L2 & P1 & P2). rewrite Forall_forall in B7.
    apply (pvalue_iff (sg_pol g) (sg_test g) (fst c) (snd c) gs Xm); rewrite ?L1; auto; lia.
  - intros k Ek. apply FC. intros c Hc. destruct (Hcols c Hc) as (L1 & L2 & P1 & P2). rewrite Forall_forall in B8.
    specialize (B8 c Hc). cbv beta in B8. rewrite Ek in B8. apply (min_diff_sound (fst c) (snd c) gs M k Xm); rewrite ?L1; auto; lia.
  - intros s sc rows Hs Ht. rewrite nth_error_map in Ht. destruct (nth_error (pr_cols (sf_problem f)) s) as [c|] eqn:Ec; [|discriminate]. injection Ht as <-.
    assert (Hc : In c (pr_cols (sf_problem f))) by (eapply nth_error_In; exact Ec). destruct (Hcols c Hc) as (L1 & L2 & P1 & P2).
    assert (El : nth_error (pr_lens (sf_problem f)) s = Some (Z.of_nat (length (fst sc)))) by (rewrite (ss_lens _ _ _ _ _ F); exact (map_nth_error (fun s : scen => Z.of_nat (length (fst s))) s X Hs)).
    pose proof (Forall2_nth _ _ _ B5 _ _ _ El Ec) as SZ. cbv beta in SZ. apply (min_max_count_iff _ _ _ Hn Hp Hr) in SZ.
    assert (Hp' := Hp). rewrite <- L1 in Hp'.
    apply (size_F (fst c) (snd c) gs _ records) in SZ; [|intros x Hx; apply (cnt_rec (fst c) (snd c) gs); auto; lia].
    eapply Forall_impl; [|exact SZ]. intros r [W1 W2]. unfold share_size in W1, W2. split; intros q Eq.
    + rewrite Eq in W1. apply ceil_le_iff. apply W1. reflexivity.
    + rewrite Eq in W2. apply le_ceil_lt. apply W2. reflexivity.
  - intros rows Hrw. apply in_map_iff in Hrw. destruct Hrw as (c & <- & Hc). destruct (Hcols c Hc) as (L1 & L2 & P1 & P2). split.
    + unfold rows_of. rewrite map_length. exact Hlg.
    + assert (Hp' := Hp). rewrite <- L1 in Hp'. unfold rows_of. rewrite Forall_map, Forall_forall. intros g0 Hg0. apply (F_pos (fst c) (snd c) gs); auto; lia.
Qed.

(** * Completeness *)
Lemma s_complete n M pr g X gs : (0 < n)%nat -> 0 < M ->
  (forall c, In c (pr_cols pr) -> length (fst c) = n /\ length (snd c) = n /\ pos_list (fst c) /\ pos_list (snd c)) ->
  length (pr_lens pr) = length (pr_cols pr) ->
  partition n gs -> describes n gs X -> s_request_met M pr g n gs -> sc_feasible n M pr g X.
Proof.
  intros Hn HM Hcols Hll Hp Hr [Rb Rt Rs Rp Rd Rf].
  assert (HS : structural n X) by (eapply represents_structural; eauto).
  destruct HS as (B1 & B2 & B3). unfold sc_feasible. repeat (split; [assumption|]).
  split; [now apply (min_max_bins_iff _ _ _ Hn Hp Hr)|].
  assert (BD : forall c, In c (pr_cols pr) -> bounded n (rate_mat M (fst c) (snd c)) M).
  { intros c Hc. destruct (Hcols c Hc) as (L1 & L2 & P1 & P2). rewrite <- L1. apply rate_mat_bounded; auto; lia. }
  assert (GL : forall c, In c (pr_cols pr) -> forall a b, In a gs -> In b gs ->
     rate_le (gsum (fst c) a, gsum (snd c) a) (gsum (fst c) b, gsum (snd c) b) -> g_le (rate_mat M (fst c) (snd c)) a b).
  { intros c Hc a b Ha Hb Hg. destruct (Hcols c Hc) as (L1 & L2 & P1 & P2).
    apply (rate_g_le (fst c) (snd c) gs M); auto; [lia| |lia]. rewrite L1. exact Hp. }
  split; [|split; [|split; [|split]]].
  - assert (G : forall s len c, nth_error (pr_lens pr) s = Some len -> nth_error (pr_cols pr) s = Some c ->
      min_max_count n (share_size (sg_min_size g) len) (share_size (sg_max_size g) len) (fun j => nth j (fst c) 0 + nth j (snd c) 0) X).
    { intros s len c El Ec. specialize (Rs s len c El Ec). assert (Hc : In c (pr_cols pr)) by (eapply nth_error_In; exact Ec).
      destruct (Hcols c Hc) as (L1 & L2 & P1 & P2). apply (min_max_count_iff _ _ _ Hn Hp Hr). assert (Hp' := Hp). rewrite <- L1 in Hp'.
      apply (size_F (fst c) (snd c) gs _ records); [intros x Hx; apply (cnt_rec (fst c) (snd c) gs); auto; lia|].
      eapply Forall_impl; [|exact Rs]. intros r [W1 W2]. unfold share_size. split.
      - intros a Ea. destruct (sg_min_size g) as [q|]; [|discriminate]. injection Ea as <-. apply ceil_le_iff. auto.
      - intros b Eb. destruct (sg_max_size g) as [q|]; [|discriminate]. injection Eb as <-. apply le_le_ceil. auto. }
    clear -G Hll. revert G Hll. generalize (pr_lens pr) (pr_cols pr). intros a b. revert b. induction a as [|x a IH]; intros [|y b] G Hll; cbn in Hll; try discriminate; constructor.
    + apply (G 0%nat x y); reflexivity.
    + apply IH; [|lia]. intros s len c. apply (G (S s)).
  - unfold sc_trend. cbv zeta. destruct (sg_trend g); cbn [s_trend_met] in Rt; try contradiction; try exact I.
    + rewrite Forall_map in Rt. rewrite Forall_forall in *. intros c Hc. apply (ascending_iff _ _ _ Hn Hp Hr _ _ (BD c Hc)). split; [|discriminate].
      eapply all_pairs_unmap; [|exact (Rt c Hc)]. apply (GL c Hc).
    + rewrite Forall_map in Rt. rewrite Forall_forall in *. intros c Hc. apply (descending_iff _ _ _ Hn Hp Hr _ _ (BD c Hc)). split; [|discriminate].
      eapply all_pairs_unmap; [|exact (Rt c Hc)]. intros a b Ha Hb Hg. apply (GL c Hc); assumption.
    + destruct Rt as (k & Rt). rewrite Forall_map in Rt. destruct (bends_peak n gs X M Hn Hp Hr k) as (y & t & Hcp & HB). exists y, t. split; [exact Hcp|].
      rewrite Forall_forall in *. intros c Hc. apply HB; [now apply BD|]. eapply bends_unmap; [|exact (Rt c Hc)]. apply (GL c Hc).
    + destruct Rt as (k & Rt). rewrite Forall_map in Rt. destruct (bends_valley n gs X M Hn Hp Hr k) as (y & t & Hcp & HB). exists y, t. split; [exact Hcp|].
      rewrite Forall_forall in *. intros c Hc. apply HB; [now apply BD|]. eapply bends_unmap; [|exact (Rt c Hc)]. intros a b Ha Hb Hg. apply (GL c Hc); assumption.
  - rewrite Forall_forall in *. intros c Hc. destruct (Hcols c Hc) as (L1 & L2 & P1 & P2).
    apply (pvalue_iff (sg_pol g) (sg_test g) (fst c) (snd c) gs X); rewrite ?L1; auto; lia.
  - destruct (sg_md g) as [k|] eqn:Ek; [|apply Forall_forall; intros c _ v []]. specialize (Rd k eq_refl). rewrite Forall_forall in *. intros c Hc.
    destruct (Hcols c Hc) as (L1 & L2 & P1 & P2). apply (min_diff_complete (fst c) (snd c) gs M k X); rewrite ?L1; auto; lia.
  - apply (fixed_iff _ _ _ Hn Hp Hr). exact Rf.
Qed.

(** * Objective *)
Lemma gsum_total l gs : forall a m, chain a m gs -> (m <= length l)%nat -> zsum (map (fun g0 => gsum l g0) gs) = zsum (firstn (m - a) (skipn a l)).
Proof.
  intros a m H. induction H as [m|s e m gs Hse Hch IH]; intros Hm.
  - rewrite Nat.sub_diag. reflexivity.
  - pose proof (chain_le _ _ _ Hch) as Hle. cbn [map zsum]. rewrite IH by exact Hm. unfold gsum, slice. cbn [fst snd].
    replace (m - s)%nat with ((S e - s) + (m - S e))%nat by lia. rewrite <- zsum_app. f_equal.
    assert (E : forall (A : Type) a b (l : list A), firstn (a + b) l = firstn a l ++ firstn b (skipn a l))
      by (clear; intros A a; induction a as [|a IH]; intros b [|x l]; cbn; try reflexivity; [now rewrite firstn_nil|now rewrite IH]).
    rewrite E. f_equal. rewrite skipn_skipn_add. f_equal. f_equal. lia.
Qed.
(** total divergence of a scenario's rows *)
Definition rows_div (phi : Z * Z -> Z * Z -> Z) (rows : list (Z * Z)) : Z :=
  zsum (map (phi (zsum (map fst rows), zsum (map snd rows))) rows).
Lemma objective_rows n phi c X gs : (0 < n)%nat -> partition n gs -> describes n gs X -> length (fst c) = n -> length (snd c) = n ->
  objective n (div_mat (phi (zsum (fst c), zsum (snd c))) (fst c) (snd c)) X = rows_div phi (rows_of (fst c) (snd c) gs).
Proof.
  intros Hn Hp Hr L1 L2. rewrite (objective_groups n gs X Hn Hp Hr). unfold rows_div, rows_of. rewrite !map_map. cbn [fst snd].
  assert (T : forall l, length l = n -> zsum (map (fun g0 => gsum l g0) gs) = zsum l).
  { intros l Hl. rewrite (gsum_total l gs 0 n Hp) by lia. rewrite Nat.sub_0_r. cbn [skipn]. rewrite firstn_all2 by lia. reflexivity. }
  rewrite !T by assumption. apply zsum_map_ext. intros [s e] Hin. pose proof (chain_in _ _ _ _ _ Hp Hin).
  unfold at_group, div_mat. cbn [fst snd]. rewrite !cum_mat_gsum by lia. reflexivity.
Qed.
Lemma sc_objective_rows n phi pr X gs : (0 < n)%nat -> partition n gs -> describes n gs X ->
  (forall c, In c (pr_cols pr) -> length (fst c) = n /\ length (snd c) = n) ->
  sc_objective n phi pr X = zsum (map2 (fun w rows => w * rows_div phi rows) (pr_w pr) (map (fun c => rows_of (fst c) (snd c) gs) (pr_cols pr))).
Proof.
  intros Hn Hp Hr Hc. unfold sc_objective. f_equal. revert Hc. generalize (pr_w pr) (pr_cols pr). intros w. induction w as [|a w IH]; intros [|c cols] Hc; cbn [map2 map]; try reflexivity.
  destruct (Hc c (or_introl eq_refl)) as [L1 L2]. rewrite (objective_rows n phi c X gs) by assumption. f_equal. apply IH. intros c' Hc'. apply Hc. now right.
Qed.

(** * Weights *)
Lemma qmin_le l : forall a, (qmin a l <= a)%Q /\ (forall b, In b l -> (qmin a l <= b)%Q) /\ (qmin a l = a \/ In (qmin a l) l).
Proof.
  induction l as [|b l IH]; intros a; cbn [qmin].
  - split; [apply Qle_refl|]. split; [intros ? []|now left].
  - destruct (Qle_bool b a) eqn:E.
    + apply Qle_bool_iff in E. destruct (IH b) as (H1 & H2 & H3). split; [eapply Qle_trans; eauto|]. split; [intros c [<-|Hc]; auto|].
      destruct H3 as [H3|H3]; right; [left; now symmetry|now right].
    + assert (E' : (a <= b)%Q) by (apply Qlt_le_weak, Qnot_le_lt; intros H; apply Qle_bool_iff in H; congruence).
      destruct (IH a) as (H1 & H2 & H3). split; [exact H1|]. split; [intros c [<-|Hc]; [eapply Qle_trans; eauto|auto]|].
      destruct H3 as [H3|H3]; [now left|right; now right].
Qed.
Lemma scale_pos m : (0 < m)%Q -> (0 < weight_scale m)%Q /\ (1 <= m * weight_scale m)%Q.
Proof.
  intros H. unfold weight_scale. destruct (Qle_bool 1 m) eqn:E.
  - apply Qle_bool_iff in E. split; [exact H|]. rewrite <- (Qmult_1_l 1) at 1. apply Qmult_le_compat_nonneg; split; auto; discriminate.
  - split; [now apply Qinv_lt_0_compat|]. rewrite Qmult_inv_r; [apply Qle_refl|]. intros Z. rewrite Z in H. discriminate.
Qed.
Lemma int_weights_spec w wi : int_weights w = Some wi ->
  exists sw, (0 < sw)%Q /\ wi = map (fun v => Qfloor (v * sw)%Q) w /\ Forall (fun v => (0 < v)%Q /\ (1 <= v * sw)%Q) w.
Proof.
  destruct w as [|a r]; [discriminate|]. unfold int_weights. set (m := qmin a r). destruct (Qle_bool m 0) eqn:E; [discriminate|]. intros [= <-].
  assert (Hm : (0 < m)%Q) by (apply Qnot_le_lt; intros H; apply Qle_bool_iff in H; congruence).
  destruct (scale_pos m Hm) as [S1 S2]. exists (weight_scale m). split; [exact S1|]. split; [reflexivity|].
  apply Forall_forall. intros v Hv. assert (Hmv : (m <= v)%Q).
  { destruct (qmin_le r a) as (H1 & H2 & _). destruct Hv as [<-|Hv]; [exact H1|exact (H2 v Hv)]. }
  split; [exact (Qlt_le_trans _ _ _ Hm Hmv)|]. eapply Qle_trans; [exact S2|]. apply Qmult_le_compat_r; [exact Hmv|now apply Qlt_le_weak].
Qed.
