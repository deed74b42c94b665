(** C91: the figures of a stream of data: plot_progress of OptimalBinningSketch, psi_plot of ScorecardMonitoring. *)
From Coq Require Import List ZArith QArith Reals Bool Arith Lia Lra Lqa Sorting.
From Verif Require Import Model.Arr Model.Core Model.Metrics Model.BSketch Model.OptSketch Model.SketchLife Model.Process Model.Classif Model.Monitor Model.MonLife Model.Progress Model.PsiPlot
  Spec.CoreSpec Spec.SketchLifeSpec Spec.MonitorSpec Spec.MonLifeSpec Spec.StreamPlotsSpec Proofs.ArrP Proofs.MonitorP Proofs.MonLifeP Proofs.MonLifeQ Proofs.SketchLifeP Proofs.ProgressP Proofs.PsiPlotP
  Props.SketchLifeProps Props.MonitorProps Props.MonLifeProps.
Import ListNotations.
Open Scope nat_scope.

(** plot_progress raises NotFittedError until a solve has succeeded; afterwards it shows one point for each solve that succeeded, in order:
    at the number of records known then, the divergence of the binning table published by that solve, and the mean of the divergences up to
    it; the title shows the accepted calls of add and the records of the latest one. Adding or merging data without solving changes nothing. *)
Theorem C91_progress : forall e d solver m h, opt_ok solver -> clean_merges h ->
  let g := rev (good_solves e d solver m h) in
  (g = [] -> plot_progress (sketch_object e d solver m h) = Err NotFitted) /\
  (g <> [] -> exists f dv, plot_progress (sketch_object e d solver m h) = Ok f /\
     length dv = length g /\ length (pr_div f) = length g /\ length (pr_mean f) = length g /\ length (pr_band f) = length g /\
     (forall i h', nth_error g i = Some h' -> exists sp nev ev,
        n_table (object e d solver m (SSolve h')) = Ok (sp, (nev, ev)) /\ nth_error dv i = Some (div_of d nev ev) /\
        nth_error (pr_div f) i = Some (n_of h', div_of d nev ev) /\
        nth_error (pr_mean f) i = Some (n_of h', rsum (firstn (S i) dv) / INR (S i))%R /\
        nth_error (pr_band f) i = Some (n_of h', band dv i)) /\
     nondecreasing (map fst (pr_div f)) /\
     pr_title f = (own_adds (last g SNew), n_of (last g SNew)) /\
     (fst (fst (pr_last f)) = last dv 0 /\ snd (fst (pr_last f)) = rsum dv / INR (length dv))%R).
Proof.
  intros e d solver m h Ho C g. pose proof (solved_good e d solver m h Ho C) as SG. pose proof (rows_good e d solver m h Ho C) as RG. fold g in RG.
  unfold plot_progress. rewrite so_object. split.
  - intros E. destruct (o_solved (object e d solver m h)) eqn:X; [|reflexivity]. exfalso. apply (proj1 SG eq_refl). unfold g in E. apply (f_equal (@rev _)) in E. now rewrite rev_involutive in E.
  - intros N. assert (X : o_solved (object e d solver m h) = true). { apply SG. intros E. apply N. unfold g. now rewrite E. }
    rewrite X. cbn [negb]. rewrite so_object in RG. rewrite RG. clear RG. set (T := table_div e d solver m).
    destruct (exists_last N) as [g0 [hl Eg]]. unfold progress_plot.
    match goal with |- context [match rev ?l with _ => _ end] => assert (ER : rev l = rev (map (fun h' => (own_adds h', n_of h', T h')) (g0 ++ [hl]))) by (rewrite <- Eg; reflexivity) end.
    rewrite ER, map_app, rev_app_distr. cbn [map rev app]. eexists. exists (map T g).
    split; [reflexivity|]. rewrite ?map_map. cbn [fst snd pr_div pr_mean pr_band pr_title pr_last]. fold T.
    change (fun x : shist => T x) with T. change (fun x : shist => n_of x) with n_of.
    assert (La : last g SNew = hl) by (rewrite Eg; apply last_last).
    split; [apply map_length|]. split; [rewrite combine_length, !map_length; lia|]. split; [rewrite combine_length, !map_length, seq_length; lia|]. split; [rewrite combine_length, !map_length, seq_length; lia|].
    split; [|split; [|split; [rewrite La; reflexivity|]]].
    + intros i h' Hi. assert (Hlt : i < length g) by (apply nth_error_Some; congruence).
      assert (In_ : In h' (good_solves e d solver m h)) by (apply in_rev; fold g; eapply nth_error_In; exact Hi).
      pose proof (good_is_ok _ _ _ _ _ _ In_) as Ok1. pose proof (good_clean _ _ _ _ _ _ C In_) as C1.
      destruct (solve_good e d solver m h' C1 Ok1) as (b & f & fl & _ & _ & _ & _ & S1 & _ & _ & S4 & _). cbv zeta in *.
      exists (sf_splits f), (sf_nev f), (sf_ev f). unfold n_table. rewrite S1, S4. split; [reflexivity|].
      assert (Et : T h' = div_of d (sf_nev f) (sf_ev f)) by (unfold T, table_div; rewrite S4; reflexivity). rewrite <- Et.
      assert (N1 : nth_error (map T g) i = Some (T h')) by (rewrite nth_error_map, Hi; reflexivity).
      assert (N2 : nth_error (map n_of g) i = Some (n_of h')) by (rewrite nth_error_map, Hi; reflexivity).
      assert (N3 : nth_error (seq 0 (length (map (fun h'0 => (own_adds h'0, n_of h'0, T h'0)) g))) i = Some i).
      { rewrite map_length, (nth_error_nth' _ 0) by (rewrite seq_length; exact Hlt). now rewrite seq_nth by exact Hlt. }
      rewrite !nth_error_combine, !nth_error_map, N3, Hi. cbn [option_map]. auto.
    + assert (S0 : StronglySorted Z.ge (map n_of (good_solves e d solver m h))) by apply good_sorted.
      assert (Ef : map fst (combine (map n_of g) (map T g)) = rev (map n_of (good_solves e d solver m h))).
      { unfold g. rewrite <- map_rev. generalize (rev (good_solves e d solver m h)). induction l as [|x l IH]; [reflexivity|]. cbn [map combine fst]. now rewrite IH. }
      rewrite Ef. clear -S0. revert S0. generalize (map n_of (good_solves e d solver m h)). induction l as [|x l IH]; intros H; [constructor|]. cbn [rev]. inversion H as [|? ? Hl Hx]; subst. specialize (IH Hl).
      rewrite Forall_forall in Hx. assert (Hr : forall y, In y (rev l) -> (y <= x)%Z) by (intros y Hy; apply in_rev in Hy; specialize (Hx y Hy); lia). clear -IH Hr. unfold nondecreasing in *.
      induction IH as [|y k Hk IHk Hy]; [repeat constructor|]. cbn [app]. constructor; [apply IHk; intros z Hz; apply Hr; now right|]. apply Forall_app. split; [exact Hy|]. constructor; [apply Hr; now left|constructor].
    + split.
      * rewrite Eg, map_app. cbn [map]. rewrite last_last. reflexivity.
      * unfold roll_mean. rewrite !map_length. assert (Hg : length g <> 0) by (destruct g; [congruence|discriminate]). replace (S (length g - 1)) with (length g) by lia.
        rewrite firstn_all2 by (rewrite map_length; lia). reflexivity.
Qed.
Print Assumptions C91_progress.

(** The band: none at the first solve; afterwards the divergence plus and minus 1.96 times the standard error of the mean of the divergences
    so far, cut at 0: it is above 0, contains the curve, and has no width exactly when all divergences so far are equal. *)
Theorem C91_band : forall l i, (forall x, In x l -> 0 <= x)%R -> i < length l ->
  (i = 0 -> band l i = None) /\
  (i <> 0 -> exists lo hi w, band l i = Some (lo, hi) /\
     let mean := (rsum (firstn (S i) l) / INR (S i))%R in let x := nth i l 0%R in
     (0 <= lo <= x)%R /\ (x <= hi)%R /\ (hi = x + w)%R /\ (lo = Rmax 0 (x - w))%R /\
     (w = 1959963984540054 / 1000000000000000 * (sqrt (rsum (map (fun v => (v - mean) ^ 2) (firstn (S i) l)) / INR i) / sqrt (INR (S i))))%R /\
     (w = 0%R <-> forall v, In v (firstn (S i) l) -> v = mean)).
Proof.
  intros l i P Hi. split; [intros ->; reflexivity|]. intros N. unfold band. rewrite err_eq by lia.
  set (q := rsum (map (fun x => (x - roll_mean l i) ^ 2)%R (firstn (S i) l))) in *. pose proof (rsum_sq_nonneg (fun x => x - roll_mean l i)%R (firstn (S i) l)) as Q0. cbv beta in Q0. fold q in Q0.
  assert (I1 : (0 < INR i)%R) by (apply lt_0_INR; lia). assert (I2 : (0 < INR (S i))%R) by (apply lt_0_INR; lia).
  assert (D0 : (0 <= q / INR i)%R) by (apply Rmult_le_pos; [exact Q0|apply Rlt_le, Rinv_0_lt_compat, I1]).
  pose proof (sqrt_pos (q / INR i)) as S1. pose proof (sqrt_lt_R0 _ I2) as S2.
  set (s := (sqrt (q / INR i) / sqrt (INR (S i)))%R). assert (S0 : (0 <= s)%R) by (unfold s; apply Rmult_le_pos; [exact S1|apply Rlt_le, Rinv_0_lt_compat, S2]).
  pose proof z_pos as Z0. assert (W0 : (0 <= s * z_95)%R) by (apply Rmult_le_pos; [exact S0|apply Rlt_le; exact Z0]). assert (X0 : (0 <= nth i l 0)%R) by (apply P, nth_In, Hi).
  do 3 eexists. split; [reflexivity|]. cbv zeta.
  split. { split; [apply Rmax_l|]. apply Rmax_lub; [exact X0|]. apply (Rplus_le_reg_r (s * z_95)). ring_simplify. rewrite <- (Rplus_0_r (nth i l 0%R)) at 1. apply Rplus_le_compat_l. exact W0. }
  split. { rewrite <- (Rplus_0_r (nth i l 0%R)) at 1. apply Rplus_le_compat_l. exact W0. }
  split; [reflexivity|]. split; [reflexivity|]. split; [change (1959963984540054 / 1000000000000000)%R with z_95; unfold s, q, roll_mean; ring|].
  assert (W1 : (s * z_95 = 0)%R <-> q = 0%R).
  { split.
    - intros H. apply Rmult_integral in H as [H|H]; [|exfalso; apply (Rlt_irrefl 0); rewrite <- H at 2; exact Z0]. unfold s in H. apply Rmult_integral in H as [H|H].
      + apply sqrt_eq_0 in H; [|exact D0]. apply Rmult_integral in H as [H|H]; [exact H|]. exfalso. apply (Rinv_neq_0_compat (INR i)); [apply Rgt_not_eq; exact I1|exact H].
      + exfalso. apply (Rinv_neq_0_compat (sqrt (INR (S i)))); [apply Rgt_not_eq; exact S2|exact H].
    - intros H. unfold s. rewrite H. unfold Rdiv. rewrite Rmult_0_l, sqrt_0, !Rmult_0_l. reflexivity. }
  rewrite W1. unfold q. rewrite (rsum_sq_zero (fun x => x - roll_mean l i)%R). unfold roll_mean. split; intros H v Hv; specialize (H v Hv).
  - now apply Rminus_diag_uniq.
  - now apply Rminus_diag_eq.
Qed.
Print Assumptions C91_band.
