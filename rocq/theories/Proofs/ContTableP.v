(** The continuous-target binning table: column formulas, totals, bounds of the IV. *)
From Coq Require Import List ZArith Bool Arith Lia Sorting Reals Lra.
From Verif Require Import Model.Arr Model.Core Model.CP Model.Cont Model.Metrics Model.ContTable
  Spec.CoreSpec Spec.CPSpec Spec.CPFitSpec Spec.ContSpec Spec.MetricsSpec Spec.ContTableSpec
  Proofs.ArrP Proofs.CoreP Proofs.FitP Proofs.CoreFinal Proofs.CPP Proofs.CPC Proofs.CPTable Proofs.CPFinal
  Proofs.ContP Proofs.ContC Proofs.ContFinal Proofs.ContTrend Proofs.MetricsP Proofs.MetricsQ.
Import ListNotations.
Open Scope R_scope.

Lemma rtotal_rsum l : rtotal l = rsum l.
Proof. induction l as [|x l IH]; cbn; [reflexivity|]. now rewrite IH. Qed.
Lemma np_sum_some {A} (f : A -> option R) (g : A -> R) l : (forall x, In x l -> f x = Some (g x)) ->
  np_sum (map f l) = Some (rsum (map g l)).
Proof.
  induction l as [|x l IH]; intros H; cbn [map np_sum rsum]; [reflexivity|].
  rewrite (H x (or_introl eq_refl)), IH by (intros; apply H; now right). reflexivity.
Qed.
Lemma Rabs_rsum {A} (f : A -> R) l : Rabs (rsum (map f l)) <= rsum (map (fun x => Rabs (f x)) l).
Proof.
  induction l as [|x l IH]; cbn [map rsum]; [rewrite Rabs_R0; lra|].
  eapply Rle_trans; [apply Rabs_triang|]. lra.
Qed.

(** * Rows *)
Definition sumz (r : trow) : Z := match r_sum r with Some s => s | None => 0%Z end.
Definition rn (r : trow) : R := IZR (r_n r).
Definition rs_ (r : trow) : R := IZR (sumz r).
Definition umean (r : trow) : R := if (0 <? r_n r)%Z then rs_ r / rn r else 0.

Lemma rows_ok_mean r : (exists s, r_sum r = Some s /\ (r_n r = 0 -> s = 0)%Z) -> ct_row_mean r = Some (umean r).
Proof.
  intros (s & E & _). unfold ct_row_mean, umean, rs_, sumz, rn. rewrite E. destruct (0 <? r_n r)%Z; reflexivity.
Qed.
Lemma ok_records rows : ct_records rows = rsum (map rn rows).
Proof. unfold ct_records. rewrite IZR_zsum, map_map. reflexivity. Qed.
Lemma ok_sum rows : rows_ok rows -> ct_sum rows = rsum (map rs_ rows).
Proof.
  intros H. unfold ct_sum. rewrite IZR_zsum.
  assert (E : somes (map r_sum rows) = map sumz rows).
  { induction rows as [|r rows IH]; [reflexivity|]. cbn [map somes].
    destruct (H r (or_introl eq_refl)) as (_ & s & Es & _). unfold sumz at 1. rewrite Es. f_equal. apply IH. intros x Hx. apply H. now right. }
  rewrite E, map_map. reflexivity.
Qed.
(** |U - mu| times the share of the row *)
Lemma iv_term mu N r : 0 < N -> (0 <= r_n r)%Z /\ (exists s, r_sum r = Some s /\ (r_n r = 0 -> s = 0)%Z) ->
  Rabs (umean r - mu) * (rn r / N) = Rabs (rs_ r - mu * rn r) / N.
Proof.
  intros HN (Hn & s & Es & H0). unfold umean. destruct (Z.ltb_spec 0 (r_n r)) as [L|L].
  - assert (P : 0 < rn r) by (unfold rn; now apply IZR_lt).
    replace (rs_ r - mu * rn r) with ((rs_ r / rn r - mu) * rn r) by (field; lra).
    rewrite Rabs_mult, (Rabs_pos_eq (rn r)) by lra. field. lra.
  - assert (E : r_n r = 0%Z) by lia. unfold rs_, rn, sumz. rewrite Es, E, (H0 E). cbn.
    replace (0 - mu * 0) with 0 by ring. rewrite Rabs_R0. field. lra.
Qed.
Lemma total_iv_eq rows : rows_ok rows -> 0 < ct_records rows ->
  ct_total_iv rows = Some (rsum (map (fun r => Rabs (umean r - ct_mean rows) * (rn r / ct_records rows)) rows)) /\
  ct_total_iv rows = Some (rsum (map (fun r => Rabs (rs_ r - ct_mean rows * rn r)) rows) / ct_records rows) /\
  ct_total_woe rows = Some (rsum (map (fun r => Rabs (umean r - ct_mean rows)) rows)).
Proof.
  intros H HN.
  assert (A : ct_total_iv rows = Some (rsum (map (fun r => Rabs (umean r - ct_mean rows) * (rn r / ct_records rows)) rows))).
  { unfold ct_total_iv. apply np_sum_some. intros r Hr. destruct (H r Hr) as [_ Hs].
    unfold ct_iv, ct_woe. rewrite (rows_ok_mean r Hs). reflexivity. }
  split; [exact A|]. split.
  - rewrite A. f_equal. transitivity (rsum (map (fun r => Rabs (rs_ r - ct_mean rows * rn r) * / ct_records rows) rows)); [|apply rsum_mult].
    apply rsum_ext. intros r Hr. rewrite (iv_term (ct_mean rows) (ct_records rows) r HN (H r Hr)). reflexivity.
  - unfold ct_total_woe. apply np_sum_some. intros r Hr. destruct (H r Hr) as [_ Hs].
    unfold ct_woe. rewrite (rows_ok_mean r Hs). reflexivity.
Qed.

Lemma rsum_div_le a b N : 0 < N -> a <= b -> a / N <= b / N.
Proof. intros. unfold Rdiv. apply Rmult_le_compat_r; [left; now apply Rinv_0_lt_compat|assumption]. Qed.

(** merging *)
Lemma sums_some (g : list trow) ss : map r_sum g = map Some ss -> map rs_ g = map IZR ss.
Proof.
  revert ss. induction g as [|r g IH]; intros [|s ss] E; cbn in E; try discriminate; [reflexivity|].
  injection E as E1 E2. cbn [map]. unfold rs_ at 1, sumz. rewrite E1. f_equal. now apply IH.
Qed.
Lemma merged_sums groups coarse : merged_rows groups coarse ->
  rsum (map rn coarse) = rsum (map rn (concat groups)) /\ rsum (map rs_ coarse) = rsum (map rs_ (concat groups)).
Proof.
  induction 1 as [|g r groups coarse (_ & En & ss & Es & Er) _ [I1 I2]]; [split; reflexivity|].
  cbn [concat map rsum]. rewrite !map_app, !rsum_app, I1, I2. split; f_equal.
  - unfold rn at 1. rewrite En, IZR_zsum, map_map. reflexivity.
  - unfold rs_ at 1, sumz. rewrite Er, IZR_zsum, (sums_some _ _ Es). reflexivity.
Qed.
Lemma merged_abs mu groups coarse : merged_rows groups coarse ->
  rsum (map (fun r => Rabs (rs_ r - mu * rn r)) coarse) <= rsum (map (fun r => Rabs (rs_ r - mu * rn r)) (concat groups)).
Proof.
  induction 1 as [|g r groups coarse (_ & En & ss & Es & Er) _ IH]; [cbn; lra|].
  cbn [concat map rsum]. rewrite map_app, rsum_app.
  assert (E : rs_ r - mu * rn r = rsum (map (fun x => rs_ x - mu * rn x) g)).
  { unfold rs_ at 1, rn at 1, sumz. rewrite Er, En, !IZR_zsum, <- (sums_some _ _ Es), map_map.
    clear. induction g as [|a g IH]; cbn [map rsum]; [ring|]. rewrite <- IH. unfold rn. ring. }
  rewrite E. pose proof (Rabs_rsum (fun x => rs_ x - mu * rn x) g). lra.
Qed.
Lemma merged_ok groups coarse : rows_ok (concat groups) -> merged_rows groups coarse -> rows_ok coarse.
Proof.
  intros Hok H. induction H as [|g r groups coarse (_ & En & ss & Es & Er) _ IH]; [intros ? []|].
  cbn [concat] in Hok. intros x [<-|Hx].
  - assert (Hg : rows_ok g) by (intros y Hy; apply Hok, in_or_app; now left).
    assert (P : (0 <= zsum (map r_n g))%Z /\ (zsum (map r_n g) = 0 -> zsum ss = 0)%Z).
    { clear -Hg Es. revert ss Es. induction g as [|a g IH]; intros [|s ss] E; cbn in E; try discriminate; [cbn; lia|].
      injection E as E1 E2. destruct (Hg a (or_introl eq_refl)) as (A & s' & B & C). rewrite B in E1. injection E1 as ->.
      destruct (IH (fun y Hy => Hg y (or_intror Hy)) ss E2) as [D F]. cbn [map zsum]. split; [lia|].
      intros G. rewrite C, F by lia. reflexivity. }
    destruct P as [P1 P2]. rewrite En. split; [exact P1|]. exists (zsum ss). split; [exact Er|]. exact P2.
  - apply IH; [|exact Hx]. intros y Hy. apply Hok, in_or_app. now right.
Qed.
Lemma merge_iv groups coarse : rows_ok (concat groups) -> merged_rows groups coarse -> 0 < ct_records (concat groups) ->
  exists a b, ct_total_iv coarse = Some a /\ ct_total_iv (concat groups) = Some b /\ 0 <= a <= b.
Proof.
  intros Hok Hm HN. pose proof (merged_ok _ _ Hok Hm) as Hc. destruct (merged_sums _ _ Hm) as [S1 S2].
  assert (EN : ct_records coarse = ct_records (concat groups)) by (rewrite !ok_records; exact S1).
  assert (EM : ct_mean coarse = ct_mean (concat groups)) by (unfold ct_mean; rewrite EN, !ok_sum by assumption; now rewrite S2).
  destruct (total_iv_eq _ Hok HN) as (_ & A & _). rewrite <- EN in HN. destruct (total_iv_eq _ Hc HN) as (_ & B & _).
  eexists. eexists. split; [exact B|]. split; [exact A|]. rewrite EM, EN in *. split.
  - apply Rmult_le_pos; [|left; now apply Rinv_0_lt_compat]. apply rsum_nonneg. intros x Hx. apply in_map_iff in Hx as (r & <- & _). apply Rabs_pos.
  - apply rsum_div_le; [assumption|]. now apply merged_abs.
Qed.

(** shifting *)
Lemma shifted_props c a b : shifted c a b -> rows_ok a ->
  rows_ok b /\ rsum (map rn b) = rsum (map rn a) /\ rsum (map rs_ b) = rsum (map rs_ a) + IZR c * rsum (map rn a).
Proof.
  induction 1 as [|x y a b (En & s & Ex & Ey) _ IH]; intros Hok; [split; [intros ? []|]; cbn; split; [reflexivity|ring]|].
  destruct (IH (fun r Hr => Hok r (or_intror Hr))) as (I1 & I2 & I3). destruct (Hok x (or_introl eq_refl)) as (P & s' & Es & Q).
  rewrite Ex in Es. injection Es as <-. split.
  - intros r [<-|Hr]; [|now apply I1]. rewrite En. split; [exact P|]. eexists. split; [exact Ey|]. intros E. rewrite (Q E), E. ring.
  - cbn [map rsum]. rewrite I2, I3. unfold rn at 1 3, rs_ at 1 3, sumz. rewrite En, Ex, Ey, plus_IZR, mult_IZR. unfold rn at 4. split; ring.
Qed.
Lemma shifted_terms c mu a b : shifted c a b ->
  rsum (map (fun r => Rabs (rs_ r - (mu + IZR c) * rn r)) b) = rsum (map (fun r => Rabs (rs_ r - mu * rn r)) a) /\
  ((forall r, In r a -> (0 < r_n r)%Z) -> rsum (map (fun r => Rabs (umean r - (mu + IZR c))) b) = rsum (map (fun r => Rabs (umean r - mu)) a)).
Proof.
  induction 1 as [|x y a b (En & s & Ex & Ey) _ [I1 I2]]; [split; reflexivity|]. cbn [map rsum]. split.
  - rewrite I1. f_equal. f_equal. unfold rs_, rn, sumz. rewrite En, Ex, Ey, plus_IZR, mult_IZR. ring.
  - intros Hp. rewrite I2 by (intros; apply Hp; now right). f_equal. f_equal. unfold umean, rs_, rn, sumz. rewrite En, Ex, Ey.
    pose proof (Hp x (or_introl eq_refl)) as L. apply Z.ltb_lt in L as L'. rewrite L'. rewrite plus_IZR, mult_IZR.
    apply IZR_lt in L. field. lra.
Qed.
Lemma shift_iv c a b : shifted c a b -> rows_ok a -> 0 < ct_records a ->
  ct_total_iv b = ct_total_iv a /\
  ((forall r, In r a -> (0 < r_n r)%Z) -> ct_total_woe b = ct_total_woe a).
Proof.
  intros Hs Hok HN. destruct (shifted_props _ _ _ Hs Hok) as (Hb & E1 & E2).
  assert (EN : ct_records b = ct_records a) by (rewrite !ok_records; exact E1).
  assert (EM : ct_mean b = ct_mean a + IZR c).
  { unfold ct_mean. rewrite EN, !ok_sum by assumption. rewrite E2, <- ok_records. field. lra. }
  destruct (total_iv_eq _ Hok HN) as (_ & A1 & A2). assert (HN' : 0 < ct_records b) by now rewrite EN.
  destruct (total_iv_eq _ Hb HN') as (_ & B1 & B2). destruct (shifted_terms c (ct_mean a) a b Hs) as [T1 T2].
  rewrite A1, B1, A2, B2, EM, EN. split; [now rewrite T1|]. intros Hp. now rewrite T2.
Qed.

(** shares, HHI, quality *)
Lemma shares_ok rows : rows_ok rows -> 0 < ct_records rows ->
  (forall x, In x (map (ct_share rows) rows) -> 0 <= x <= 1) /\ rsum (map (ct_share rows) rows) = 1.
Proof.
  intros Hok HN. assert (Hn : forall r, In r rows -> 0 <= rn r) by (intros r Hr; unfold rn; apply IZR_le, Hok, Hr). split.
  - intros x Hx. apply in_map_iff in Hx as (r & <- & Hr). unfold ct_share. fold (rn r). specialize (Hn r Hr) as Hr0. split.
    + apply Rmult_le_pos; [exact Hr0|]. left. now apply Rinv_0_lt_compat.
    + apply Rmult_le_reg_r with (ct_records rows); [exact HN|]. unfold Rdiv. rewrite Rmult_assoc, Rinv_l, Rmult_1_r, Rmult_1_l by lra.
      rewrite ok_records. clear HN Hok. induction rows as [|a l IH]; [destruct Hr|]. cbn [map rsum].
      assert (0 <= rsum (map rn l)) by (apply rsum_nonneg; intros y Hy; apply in_map_iff in Hy as (b & <- & Hb); apply Hn; now right).
      assert (0 <= rn a) by (apply Hn; now left).
      destruct Hr as [->|Hr]; [lra|]. specialize (IH (fun b Hb => Hn b (or_intror Hb)) Hr). lra.
  - unfold ct_share. unfold Rdiv. rewrite (rsum_mult (fun r => IZR (r_n r))).
    change (rsum (map rn rows) * / ct_records rows = 1). rewrite <- ok_records. field. lra.
Qed.
Lemma quality_ok test ns no rows q : rows_ok rows -> 0 < ct_records rows ->
  (forall a b, 0 <= test a b <= 1) -> ct_quality test ns no rows = Some q -> 0 <= q <= 1.
Proof.
  intros Hok HN Ht Hq. destruct (total_iv_eq _ Hok HN) as (_ & _ & W). unfold ct_quality in Hq. rewrite W in Hq. cbn [option_map] in Hq.
  injection Hq as <-. destruct (shares_ok _ Hok HN) as [S1 S2]. destruct (hhi_bounds _ S1 S2) as [_ B].
  apply cont_quality_bounds; [|intros p Hp|exact B].
  - assert (P : 0 <= rsum (map (fun r => Rabs (umean r - ct_mean rows)) rows)).
    { apply rsum_nonneg. intros x Hx. apply in_map_iff in Hx as (r & <- & _). apply Rabs_pos. }
    unfold ct_rwoe. destruct (Req_EM_T (ct_mean rows) 0) as [E|E]; [exact P|].
    apply Rmult_le_pos; [exact P|]. left. apply Rinv_0_lt_compat. now apply Rabs_pos_lt.
  - unfold ct_pvalues in Hp. revert Hp. generalize (firstn (ct_metric ns no rows) rows). intros l. induction l as [|a [|b l] IH]; cbn; intros Hp; try contradiction.
    destruct Hp as [<-|Hp]; [apply Ht|now apply IH].
Qed.
