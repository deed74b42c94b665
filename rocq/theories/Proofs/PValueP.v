From Coq Require Import List ZArith Bool Arith Lia Reals Lra.
From Verif Require Import Model.Arr Model.Core Model.Cont Model.ContTable Model.MultiTable Model.PValue
  Spec.CoreSpec Spec.ContSpec Spec.CPSpec Spec.MetricsSpec Spec.MultiTableSpec Spec.PValueSpec Proofs.MultiTableP Proofs.MultiTableQ Proofs.MultiTableR.
Import ListNotations.
Open Scope R_scope.

Definition row_pos (r : Z * Z) : Prop := (0 < fst r)%Z /\ (0 < snd r)%Z.

Lemma pearson_z r1 r2 : row_pos r1 -> row_pos r2 -> pearson 2 (table2 r1 r2) = Rsqr (z_statistic r1 r2).
Proof.
  destruct r1 as [a c], r2 as [b d]. intros [A C] [B D]. cbn [fst snd] in A, B, C, D.
  apply IZR_lt in A, B, C, D. unfold z_statistic, table2. cbn [fst snd]. set (p := (IZR c + IZR d) / _).
  assert (N : 0 < IZR c + IZR a + (IZR d + IZR b)) by lra.
  assert (P : 0 < p * (1 - p) * (1 / (IZR c + IZR a) + 1 / (IZR d + IZR b))).
  { apply Rmult_lt_0_compat; [apply Rmult_lt_0_compat|].
    - unfold p. apply Rdiv_lt_0_compat; lra.
    - replace (1 - p) with ((IZR a + IZR b) / (IZR c + IZR a + (IZR d + IZR b))) by (unfold p; field; lra). apply Rdiv_lt_0_compat; lra.
    - pose proof (Rdiv_lt_0_compat 1 (IZR c + IZR a)). pose proof (Rdiv_lt_0_compat 1 (IZR d + IZR b)). lra. }
  rewrite Rsqr_div'. rewrite Rsqr_sqrt by lra.
  unfold pearson, row_sum, grand, at_row. cbn [map seq total nth zsum fold_right].
  rewrite ?plus_IZR. unfold Rsqr, p. field. repeat split; lra.
Qed.

Lemma table2_chi2 r1 r2 : row_pos r1 -> row_pos r2 -> chi2_contingency (table2 r1 r2) = Ok (Rsqr (z_statistic r1 r2)).
Proof.
  intros H1 H2. rewrite <- pearson_z by assumption. destruct r1 as [a c], r2 as [b d]. destruct H1 as [A C], H2 as [B D]. cbn [fst snd] in *.
  apply (chi2_value 2); [| |lia].
  - split; [discriminate|]. intros col [<-|[<-|[]]]; (split; [reflexivity|]); (split; [|cbn; lia]); intros x [<-|[<-|[]]]; cbn; lia.
  - intros k Hk. unfold row_sum, table2, at_row. cbn [map fst snd]. apply IZR_lt.
    destruct k as [|[|k]]; cbn; lia.
Qed.

Section Law.
Variables cdf ppf : R -> R.
Hypothesis L : normal_law cdf ppf.

Lemma cdf_le x y : cdf x <= cdf y <-> x <= y.
Proof.
  split; intros H.
  - destruct (Rle_or_lt x y) as [Q|Q]; [exact Q|]. pose proof (nl_incr _ _ L _ _ Q). lra.
  - destruct (Rle_lt_or_eq_dec _ _ H) as [Q|Q]; [left; now apply (nl_incr _ _ L)|subst; lra].
Qed.
Lemma cdf_0 : cdf 0 = 1 / 2.
Proof. pose proof (nl_sym _ _ L 0) as H. rewrite Ropp_0 in H. lra. Qed.
Lemma chi2_sf_z z : chi2_sf1 cdf (Rsqr z) = two_sided cdf z.
Proof. unfold chi2_sf1, two_sided. now rewrite sqrt_Rsqr_abs. Qed.
Lemma two_sided_range z : 0 < two_sided cdf z <= 1.
Proof.
  unfold two_sided. pose proof (nl_range _ _ L (Rabs z)). assert (cdf 0 <= cdf (Rabs z)) by (apply cdf_le; apply Rabs_pos). rewrite cdf_0 in *. lra.
Qed.
(** the test of the optimisation is the p-value of analysis compared with max_pvalue *)
Lemma bad_iff mp r1 r2 : 0 <= mp <= 1 -> (proportions_bad ppf mp r1 r2 = false <-> two_sided cdf (z_statistic r1 r2) <= mp).
Proof.
  intros Hm. unfold proportions_bad, zscore_of. destruct (Req_EM_T mp 0) as [->|N].
  - split; [discriminate|]. intros H. pose proof (two_sided_range (z_statistic r1 r2)). lra.
  - assert (P : cdf (ppf (1 - mp / 2)) = 1 - mp / 2) by (apply (nl_ppf _ _ L); lra).
    unfold two_sided. set (z := Rabs _). transitivity (ppf (1 - mp / 2) <= z).
    + destruct (Rlt_dec z _); split; intros; [discriminate|lra|lra|reflexivity].
    + rewrite <- cdf_le, P. split; lra.
Qed.
Lemma chi2_pvalue_z r1 r2 : row_pos r1 -> row_pos r2 -> chi2_pvalue cdf (table2 r1 r2) = Ok (two_sided cdf (z_statistic r1 r2)).
Proof. intros. unfold chi2_pvalue. rewrite table2_chi2, chi2_sf_z by assumption. reflexivity. Qed.
End Law.

Lemma collect_map {A B} (f : A -> res B) (g : A -> B) l : (forall a, In a l -> f a = Ok (g a)) -> collect (map f l) = Ok (map g l).
Proof.
  induction l as [|a l IH]; intros H; [reflexivity|]. cbn [map collect]. rewrite (H a) by now left. rewrite IH; [reflexivity|].
  intros b Hb. apply H. now right.
Qed.
Lemma firstn2_skipn (d : Z) (i : nat) l : (S i < length l)%nat -> firstn 2 (skipn i l) = [nth i l d; nth (S i) l d].
Proof.
  revert i. induction l as [|a l IH]; intros i H; [cbn in H; lia|]. destruct i as [|i].
  - destruct l as [|b l]; [cbn in H; lia|reflexivity].
  - cbn [skipn nth]. apply IH. cbn in H. lia.
Qed.
Lemma neighbours_nth {A} (P : A -> A -> Prop) d : forall l, neighbours P l <-> forall i, (S i < length l)%nat -> P (nth i l d) (nth (S i) l d).
Proof.
  induction l as [|a [|b l] IH].
  - split; [intros _ i Hi; cbn in Hi; lia|constructor].
  - split; [intros _ i Hi; cbn in Hi; lia|constructor].
  - cbn [neighbours]. rewrite IH. split.
    + intros [H1 H2] [|i] Hi; [exact H1|]. apply H2. cbn [length] in *. lia.
    + intros H. split; [apply (H 0%nat); cbn; lia|]. intros i Hi. apply (H (S i)). cbn [length] in *. lia.
Qed.
Lemma all_pairs_neighbours {A} (P : A -> A -> Prop) l : all_pairs P l -> neighbours P l.
Proof.
  induction 1 as [|a l Ha Hl IH]; [exact I|]. destruct l as [|b l]; [exact I|]. split; [now inversion Ha|exact IH].
Qed.
Lemma combine_firstn' {A B} : forall n (a : list A) (b : list B), firstn n (combine a b) = combine (firstn n a) (firstn n b).
Proof. induction n as [|n IH]; intros [|x a] [|y b]; try reflexivity. cbn [firstn combine]. now rewrite IH. Qed.
Lemma nth_firstn' {A} (d : A) : forall n l i, (i < n)%nat -> nth i (firstn n l) d = nth i l d.
Proof. induction n as [|n IH]; intros [|x l] i H; try lia; destruct i; try reflexivity. cbn [firstn nth]. apply IH. lia. Qed.

(** * Fisher *)
Lemma mean_bounds (l : list R) : l <> [] -> (forall x, In x l -> 0 <= x <= 1) -> 0 <= fold_right Rplus 0 l / INR (length l) <= 1.
Proof.
  intros Hn H. assert (P : 0 < INR (length l)) by (apply lt_0_INR; destruct l; [congruence|cbn; lia]).
  assert (G : 0 <= fold_right Rplus 0 l <= INR (length l)).
  { clear Hn P. induction l as [|a l IH]; [cbn; lra|]. cbn [fold_right length]. rewrite S_INR.
    assert (0 <= fold_right Rplus 0 l <= INR (length l)) by (apply IH; intros; apply H; now right). pose proof (H a (or_introl eq_refl)). lra. }
  split.
  - apply Rmult_le_pos; [tauto|left; now apply Rinv_0_lt_compat].
  - apply Rmult_le_reg_r with (INR (length l)); [exact P|]. unfold Rdiv. rewrite Rmult_assoc, Rinv_l by lra. lra.
Qed.
Lemma sum_perm l l' : Permutation.Permutation l l' -> fold_right Rplus 0 l = fold_right Rplus 0 l'.
Proof. induction 1; cbn [fold_right]; lra. Qed.

(** a law meeting [normal_law] *)
Definition ex_cdf (x : R) : R := 1 / 2 + x / (2 * (1 + Rabs x)).
Definition ex_ppf (p : R) : R := let u := 2 * p - 1 in u / (1 - Rabs u).
Lemma frac_incr x y : x < y -> x / (1 + Rabs x) < y / (1 + Rabs y).
Proof.
  intros H. pose proof (Rabs_pos x). pose proof (Rabs_pos y).
  apply Rmult_lt_reg_r with ((1 + Rabs x) * (1 + Rabs y)); [nra|].
  replace (x / (1 + Rabs x) * ((1 + Rabs x) * (1 + Rabs y))) with (x * (1 + Rabs y)) by (field; lra).
  replace (y / (1 + Rabs y) * ((1 + Rabs x) * (1 + Rabs y))) with (y * (1 + Rabs x)) by (field; lra).
  unfold Rabs. destruct (Rcase_abs x), (Rcase_abs y); nra.
Qed.
Lemma ex_law : normal_law ex_cdf ex_ppf.
Proof.
  assert (D : forall x, ex_cdf x = 1 / 2 + / 2 * (x / (1 + Rabs x))) by (intros x; unfold ex_cdf; pose proof (Rabs_pos x); field; lra).
  constructor.
  - intros x y H. rewrite !D. pose proof (frac_incr x y H). lra.
  - intros x. rewrite D. pose proof (Rabs_pos x) as A. assert (-1 < x / (1 + Rabs x) < 1); [|lra].
    split; apply Rmult_lt_reg_r with (1 + Rabs x); try lra; replace (x / (1 + Rabs x) * (1 + Rabs x)) with x by (field; lra);
      unfold Rabs in *; destruct (Rcase_abs x); lra.
  - intros x. rewrite !D, Rabs_Ropp. pose proof (Rabs_pos x). field. lra.
  - intros p Hp. rewrite D. unfold ex_ppf. cbv zeta. set (u := 2 * p - 1).
    assert (U : Rabs u < 1) by (unfold u; apply Rabs_def1; lra).
    assert (E : Rabs (u / (1 - Rabs u)) = Rabs u / (1 - Rabs u)).
    { unfold Rdiv. rewrite Rabs_mult. f_equal. apply Rabs_right. apply Rle_ge. left. apply Rinv_0_lt_compat. lra. }
    rewrite E. replace (u / (1 - Rabs u) / (1 + Rabs u / (1 - Rabs u))) with u; [unfold u; field|].
    field. split; lra.
Qed.


From Verif Require Import Model.CP Spec.CPFitSpec Proofs.ArrP Proofs.CoreP Proofs.CPP Proofs.CPC Proofs.CPTable Proofs.CPFinal Proofs.ContP Proofs.ContTrend.
(** shape of the rows of the bins *)
Lemma merge_shape : forall sol st acc rows, merge_stats acc sol st = Some rows ->
  forall r, In r rows -> exists s ss, r_sum r = Some s /\ r_std r = ByMoments s ss (r_n r).
Proof.
  induction sol as [|b sol IH]; intros st acc rows H r Hr; [injection H as <-; destruct Hr|].
  destruct st as [|c st]; [discriminate|]. cbn [merge_stats] in H. destruct b.
  - destruct (merge_stats acc0 sol st) as [l|] eqn:E; [|discriminate]. injection H as <-. destruct Hr as [<-|Hr]; [|eapply IH; eauto].
    eexists. eexists. split; reflexivity.
  - eapply IH; eauto.
Qed.
Lemma c_rows_shape old solver sp fixed user splits0 rs f M yu g X :
  (forall r, In r rs -> (0 <= k_w r)%Z) -> fit_cont old solver sp fixed user splits0 rs = Some (Ok f) -> c_solved f solver M yu g X ->
  forall r, In r (c_clean_rows f) -> exists s ss, r_sum r = Some s /\ r_std r = ByMoments s ss (r_n r) /\ (0 < r_n r)%Z.
Proof.
  intros Hw Hf Hsolved r Hr. pose proof (rows_pos _ _ _ _ _ _ _ _ _ _ _ _ Hw Hf Hsolved r Hr) as Pos.
  pose proof Hsolved as (Hn & Hsol & HF). destruct (c_groups _ _ _ _ _ _ _ _ _ _ _ _ Hw Hf Hsolved) as [gs F].
  pose proof (cf_nbins _ _ _ F) as Hnb. pose proof (cf_tab _ _ _ F) as Htab.
  destruct (fit_cont_inv _ _ _ _ _ _ _ _ Hf) as (srows & _ & _ & [C|C]).
  { destruct C as (_ & E & _). rewrite E in Hn. cbn in Hn. lia. }
  destruct C as (R & Hs1 & Hspl & Hrows). set (n := length (cp_stats (cf_prebins f))) in *.
  destruct (last_solution n gs X ltac:(lia) (cf_part _ _ _ F) (cf_desc _ _ _ F)) as (Hlast & Hlsol & Hcnt).
  rewrite <- Hsol, <- Hs1 in Hlast, Hlsol, Hcnt.
  assert (Hne : cf_solution f <> []) by (intros E; rewrite E in Hlsol; cbn in Hlsol; lia).
  destruct (Hrows Hne) as (rows & Hm & Er).
  destruct (merge_stats_loop _ _ _ _ Hm) as (M1 & _ & _). cbn [acc0 c_n c_sum c_ss] in M1.
  rewrite Hs1, Hsol in M1.
  rewrite (merge_solution n gs X) in M1 by (auto using (cf_part _ _ _ F), (cf_desc _ _ _ F); now rewrite map_length).
  assert (Hlr : length rows = length gs).
  { apply (f_equal (fun o => match o with Some l => length l | None => 0%nat end)) in M1. rewrite !map_length in M1. congruence. }
  assert (Hcl : c_clean_rows f = rows).
  { unfold c_clean_rows. rewrite Er, Hnb, <- Hlr, firstn_app, Nat.sub_diag, firstn_all. cbn [firstn]. apply app_nil_r. }
  rewrite Hcl in Hr. destruct (merge_shape _ _ _ _ Hm r Hr) as (s & ss & E1 & E2). eauto.
Qed.
