(** C92: the outlier detector in piecewise binning is applied twice. *)
From Coq Require Import List ZArith QArith Bool Arith Lia Lqa.
From Verif Require Import Model.Arr Model.Core Model.Cont Model.Outlier Model.PWLife Model.PWOutlier Spec.CoreSpec Spec.OutlierSpec Spec.PWOutlierSpec
  Proofs.ArrP Proofs.CoreP Proofs.OutlierP Proofs.OutlierR Proofs.OutlierS Props.OutlierProps.
Import ListNotations.
Open Scope Z_scope.

(** ** the model's clean data, passes and rows *)
Lemma clean_eq sp d : map (fun r => (num (k_x r), match k_y r with Some y => y | None => 0 end)) (filter (k_clean sp) (recs d)) = clean_records sp d.
Proof.
  unfold recs, clean_records. induction (pd_recs d) as [|[x y] l IH]; [reflexivity|]. cbn [map filter flat_map]. unfold to_krec at 1, k_clean at 1, k_missing. cbn [k_x k_y fst snd].
  destruct x as [|x]; [exact IH|]. destruct y as [y|]; [|exact IH]. cbn [x_isnull orb negb andb].
  assert (E : k_special sp {| k_x := XNum x; k_y := Some y; k_w := 1 |} = existsb (fun c => match c with XNum z => z =? x | XNaN => false end) (flat_codes sp)).
  { unfold k_special. cbn [k_x]. assert (G : forall cs, isin cs (XNum x) = existsb (fun c => match c with XNum z => z =? x | XNaN => false end) cs).
    { unfold isin. induction cs as [|[|z] cs IHc]; [reflexivity|exact IHc|]. cbn [existsb xval_eqb]. rewrite IHc. now rewrite (Z.eqb_sym x z). }
    destruct sp; [reflexivity|apply G|apply G]. }
  rewrite E. destruct (existsb _ _); cbn [negb map app to_krec k_x k_y fst snd num]; [exact IH|]. f_equal. exact IH.
Qed.
Lemma select_not {A} : forall (m : list bool) (l : list A), select (mnot m) l = map snd (filter (fun br => negb (fst br)) (combine m l)).
Proof. induction m as [|b m IH]; intros [|x l]; try reflexivity. cbn [mnot map select combine filter fst]. fold (mnot m). destruct b; cbn [negb map snd]; now rewrite IH. Qed.
Lemma combine_fst_snd {A B} (l : list (A * B)) : combine (map fst l) (map snd l) = l.
Proof. induction l as [|[a b] l IH]; [reflexivity|]. cbn. now rewrite IH. Qed.
Lemma remove_spec dt l l' : l <> [] -> remove_outliers (Some dt) l = Ok l' -> without_outliers dt l l'.
Proof.
  intros N. unfold remove_outliers. destruct (detect dt l) as [m|] eqn:E; [|discriminate]. cbn [rbind]. intros [= <-]. exists m. destruct dt as [d|d nb]; cbn [detect] in E.
  - destruct (C47_flags _ _ _ E) as (L & F & _). rewrite map_length in L. split; [exact L|]. split; [apply select_not|]. intros i x y H. apply (F i x). rewrite nth_error_map, H. reflexivity.
  - destruct (yquantile_ok _ _ _ _ _ E) as (s & Q & L & F); [now destruct l|now rewrite !map_length|]. rewrite map_length in L. split; [exact L|]. split; [apply select_not|]. intros i x y H.
    destruct (F i x y) as (b & B1 & B2); [rewrite nth_error_map, H; reflexivity|rewrite nth_error_map, H; reflexivity|]. exists b. split; [exact B1|]. exists s. split; [exact Q|]. now rewrite combine_fst_snd in B2.
Qed.
Lemma zsum_cons a l : zsum (a :: l) = a + zsum l.
Proof. reflexivity. Qed.
Lemma one_hit {A} (f : A -> nat) r l : forall js, NoDup js -> In (f r) js ->
  zsum (map (fun j => Z.of_nat (length (filter (fun x => Nat.eqb (f x) j) (r :: l)))) js) = 1 + zsum (map (fun j => Z.of_nat (length (filter (fun x => Nat.eqb (f x) j) l))) js).
Proof.
  assert (M : forall js, ~ In (f r) js -> map (fun j => Z.of_nat (length (filter (fun x => Nat.eqb (f x) j) (r :: l)))) js = map (fun j => Z.of_nat (length (filter (fun x => Nat.eqb (f x) j) l))) js).
  { intros js N. apply map_ext_in. intros j Hj. cbn [filter]. destruct (Nat.eqb_spec (f r) j) as [E|_]; [rewrite <- E in Hj; contradiction|reflexivity]. }
  induction js as [|j js IH]; intros ND H; [destruct H|]. inversion ND as [|? ? N ND']; subst. cbn [map]. rewrite !zsum_cons. destruct H as [E0|H]; [subst j|].
  - rewrite (M js N). cbn [filter]. rewrite Nat.eqb_refl. cbn [length]. lia.
  - rewrite (IH ND' H). cbn [filter]. destruct (Nat.eqb_spec (f r) j) as [E|_]; [subst j; contradiction|lia].
Qed.
Lemma partition_total {A} (f : A -> nat) n : forall l, (forall x, In x l -> (f x < n)%nat) ->
  zsum (map (fun j => Z.of_nat (length (filter (fun x => Nat.eqb (f x) j) l))) (seq 0 n)) = Z.of_nat (length l).
Proof.
  induction l as [|r l IH]; intros H.
  - cbn [filter length]. generalize (seq 0 n). induction l as [|x l IH]; [reflexivity|]. cbn [map]. rewrite zsum_cons, IH. reflexivity.
  - rewrite one_hit; [|apply seq_NoDup|apply in_seq; pose proof (H r (or_introl eq_refl)); lia]. rewrite IH by (intros x Hx; apply H; now right). cbn [length]. lia.
Qed.
Lemma bins_total k splits l : zsum (map (row_records k) (count_rows k splits l)) = Z.of_nat (length l).
Proof.
  unfold count_rows. rewrite map_map. rewrite <- (partition_total (fun r => digitize splits (fst r)) (S (length splits)) l) by (intros x _; pose proof (digitize_le splits (fst x)); lia).
  f_equal. apply map_ext. intros i. generalize (filter (fun r : Z * Z => (digitize splits (fst r) =? i)%nat) l) as b. intros b.
  destruct k; cbn [row_records count_row fst snd]; [|reflexivity]. induction b as [|r b IH]; [reflexivity|]. cbn [filter length]. destruct (snd r =? 0); cbn [negb length]; lia.
Qed.
Lemma fit_inv k dt sp f d t : pw_outlier_fit k dt sp f d = Ok t ->
  exists twice, remove_outliers dt (clean_records sp d) = Ok (on_clean t) /\ remove_outliers dt (on_clean t) = Ok twice /\ on_clean t <> [] /\ twice <> [] /\
    on_splits t = f twice /\ on_rows t = count_rows k (f twice) twice.
Proof.
  unfold pw_outlier_fit. cbv zeta. rewrite clean_eq. destruct (remove_outliers dt (clean_records sp d)) as [once|]; [|discriminate]. cbn [rbind]. destruct once as [|r once]; [discriminate|].
  destruct (remove_outliers dt (r :: once)) as [twice|] eqn:E; [|discriminate]. cbn [rbind]. destruct twice as [|q twice]; [discriminate|]. intros [= <-]. exists (q :: twice). cbn [on_clean on_splits on_rows]. repeat split; try assumption; discriminate.
Qed.
Lemma clean_nonempty dt l l' : remove_outliers dt l = Ok l' -> l' <> [] -> l <> [].
Proof. intros H N ->. apply N. destruct dt as [dt|]; cbn in H; [|congruence]. destruct (detect dt []) as [m|]; [|discriminate]. cbn [rbind] in H. injection H as <-. destruct (mnot m); reflexivity. Qed.

(** With a detector the data are filtered twice: the estimator, the regression and the metrics get the clean records without their
    outliers; the bins of the table count those of them that are no outliers among these. *)
Theorem C92_rows : forall k dt sp f d t, pw_outlier_fit k (Some dt) sp f d = Ok t -> nondecreasing (on_splits t) ->
  exists twice, without_outliers dt (clean_records sp d) (on_clean t) /\ without_outliers dt (on_clean t) twice /\
    bins_records k t = Z.of_nat (length twice) /\ length (on_rows t) = S (length (on_splits t)) /\
    forall i, (i <= length (on_splits t))%nat -> exists row b, nth_error (on_rows t) i = Some row /\ row_counts k b row /\
      exists sel, (forall r, sel r = true <-> in_bin_i (on_splits t) i (fst r)) /\ b = filter sel twice.
Proof.
  intros k dt sp f d t H Hs. destruct (fit_inv _ _ _ _ _ _ H) as (twice & R1 & R2 & N1 & N2 & Es & Er). rewrite <- Es in Er. exists twice.
  split; [apply remove_spec; [exact (clean_nonempty _ _ _ R1 N1)|exact R1]|]. split; [now apply remove_spec|].
  split; [unfold bins_records; rewrite Er; apply bins_total|]. split; [rewrite Er; unfold count_rows; now rewrite map_length, seq_length|].
  intros i Hi. set (sel := fun r : Z * Z => Nat.eqb (digitize (on_splits t) (fst r)) i). exists (count_row k (filter sel twice)), (filter sel twice).
  split. { rewrite Er. unfold count_rows. rewrite nth_error_map. assert (Ei : nth_error (seq 0 (S (length (on_splits t)))) i = Some i) by (rewrite (List.nth_error_nth' (seq 0 (S (length (on_splits t)))) (n:=i) 0%nat) by (rewrite seq_length; lia); rewrite seq_nth by lia; reflexivity). rewrite Ei. reflexivity. }
  split; [destruct k; split; reflexivity|]. exists sel. split; [|reflexivity]. intros r. unfold sel. rewrite Nat.eqb_eq. split; [intros <-; now apply digitize_in_bin|intros Hb; eapply in_bin_unique; [exact Hs|now apply digitize_in_bin|exact Hb]].
Qed.
Print Assumptions C92_rows.

(** Without a detector, and exactly when the second pass finds nothing, the bins count all the records the regression was fitted on. *)
Lemma select_all {A} : forall (m : list bool) (l : list A), length (select m l) = length l -> select m l = l.
Proof.
  assert (L : forall (m : list bool) (l : list A), (length (select m l) <= length l)%nat) by (induction m as [|b m IH]; intros [|x l]; cbn; try lia; specialize (IH l); destruct b; cbn; lia).
  induction m as [|b m IH]; intros [|x l] H; try reflexivity; [discriminate|]. cbn [select] in *. destruct b; cbn [length] in H; [f_equal; apply IH; lia|]. pose proof (L m l). lia.
Qed.
Theorem C92_all_counted : forall k dt sp f d t, pw_outlier_fit k dt sp f d = Ok t ->
  bins_records k t <= Z.of_nat (length (on_clean t)) /\
  (dt = None -> on_clean t = clean_records sp d /\ bins_records k t = Z.of_nat (length (on_clean t))) /\
  (bins_records k t = Z.of_nat (length (on_clean t)) <-> remove_outliers dt (on_clean t) = Ok (on_clean t)).
Proof.
  intros k dt sp f d t H. destruct (fit_inv _ _ _ _ _ _ H) as (twice & R1 & R2 & N1 & N2 & Es & Er). unfold bins_records. rewrite Er, bins_total. split.
  - destruct dt as [dt|]; cbn [remove_outliers] in R2; [|injection R2 as <-; lia]. destruct (detect dt (on_clean t)) as [m|]; [|discriminate]. cbn [rbind] in R2. injection R2 as <-.
    generalize (mnot m) as b, (on_clean t) as l. clear. induction b as [|b m IH]; intros [|x l]; cbn [select length]; try lia. specialize (IH l). destruct b; cbn [length]; lia.
  - split.
    + intros ->. cbn [remove_outliers] in *. injection R1 as R1. injection R2 as R2. rewrite <- R2. split; [now symmetry|reflexivity].
    + split; [|intros E; rewrite E in R2; injection R2 as <-; reflexivity]. intros E. rewrite R2. f_equal. destruct dt as [dt|]; cbn [remove_outliers] in R2; [|now injection R2 as <-].
      destruct (detect dt (on_clean t)) as [m|]; [|discriminate]. cbn [rbind] in R2. injection R2 as <-. apply select_all. lia.
Qed.
Print Assumptions C92_all_counted.

Lemma removed_count (dt : detector) l l' m : detect dt l = Ok m -> length m = length l -> remove_outliers (Some dt) l = Ok l' -> (length l' + count_true m = length l)%nat.
Proof.
  intros E L H. unfold remove_outliers in H. rewrite E in H. cbn [rbind] in H. injection H as <-. clear E. revert l L. induction m as [|b m IH]; intros [|x l] L; try discriminate; [reflexivity|].
  cbn [mnot map select count_true] in *. injection L as L. specialize (IH l L). fold (mnot m). destruct b; cbn [negb length count_true filter] in *; unfold count_true in *; cbn [filter length] in *; lia.
Qed.
Lemma one_pass d l l' : remove_outliers (Some (OneArray d)) l = Ok l' -> exists m, fit1 d (map fst l) = Ok m /\ (length l' + count_true m = length l)%nat.
Proof.
  intros H. pose proof H as H'. unfold remove_outliers in H. destruct (detect (OneArray d) l) as [m|] eqn:E; [|discriminate]. exists m. split; [exact E|]. apply (removed_count (OneArray d) l l' m E); [|exact H'].
  cbn [detect] in E. destruct (C47_flags _ _ _ E) as (L & _). now rewrite map_length in L.
Qed.
(** How many records the bins may lose. z-score: at least a quarter of the clean records are counted. Range, highest density: the bounds of
    the two passes; the second pass never fails. Equal-tailed: twice the bound of one pass. *)
Theorem C92_zscore_quarter : forall k thr sp f d t, pw_outlier_fit k (Some (OneArray (DZScore thr))) sp f d = Ok t -> (6745 # 10000 <= thr)%Q ->
  Z.of_nat (length (clean_records sp d)) <= 4 * bins_records k t.
Proof.
  intros k thr sp f d t H Ht. destruct (fit_inv _ _ _ _ _ _ H) as (twice & R1 & R2 & N1 & N2 & Es & Er). unfold bins_records. rewrite Er, bins_total.
  destruct (one_pass _ _ _ R1) as (m1 & E1 & L1). destruct (one_pass _ _ _ R2) as (m2 & E2 & L2). apply C47_zscore_removes_half in E1; [|exact Ht]. apply C47_zscore_removes_half in E2; [|exact Ht].
  rewrite map_length in E1, E2. lia.
Qed.
Print Assumptions C92_zscore_quarter.
Theorem C92_equal_tailed_bound : forall k p sp f d t K, pw_outlier_fit k (Some (OneArray (DRange p))) sp f d = Ok t -> r_method p = ETI -> (0 <= r_k p)%Q ->
  ((1 - r_length p) * (zq (length (clean_records sp d)) - 1) <= 2 * zq K)%Q ->
  Z.of_nat (length (clean_records sp d)) - 4 * Z.of_nat K <= bins_records k t.
Proof.
  intros k p sp f d t K H Em Hk HK. destruct (fit_inv _ _ _ _ _ _ H) as (twice & R1 & R2 & N1 & N2 & Es & Er). unfold bins_records. rewrite Er, bins_total.
  pose proof (clean_nonempty _ _ _ R1 N1) as N0. destruct (one_pass _ _ _ R1) as (m1 & E1 & L1). destruct (one_pass _ _ _ R2) as (m2 & E2 & L2).
  assert (B : (0 <= r_length p)%Q /\ (r_length p <= 1)%Q). { destruct (proj1 (C47_fit_succeeds (DRange p) (map fst (on_clean t)) ltac:(destruct (on_clean t); [congruence|discriminate])) (ex_intro _ m2 E2)) as (A1 & A2 & _). auto. }
  pose proof (C47_range_removes_few p _ m1 E1 Hk ltac:(destruct (clean_records sp d); [congruence|discriminate])) as G1. pose proof (C47_range_removes_few p _ m2 E2 Hk ltac:(destruct (on_clean t); [congruence|discriminate])) as G2.
  rewrite Em, map_length in G1, G2. specialize (G1 K HK).
  assert (HK2 : ((1 - r_length p) * (zq (length (on_clean t)) - 1) <= 2 * zq K)%Q).
  { apply Qle_trans with (2 := HK). assert (L : (zq (length (on_clean t)) <= zq (length (clean_records sp d)))%Q) by (unfold zq; rewrite <- Zle_Qle; lia).
    destruct B as [B1 B2]. rewrite !(Qmult_comm (1 - r_length p)). apply Qmult_le_compat_r; lra. }
  specialize (G2 K HK2). lia.
Qed.
Print Assumptions C92_equal_tailed_bound.
Theorem C92_density_second_pass : forall k p sp f d, r_method p = HDI -> (0 <= r_k p)%Q -> clean_records sp d <> [] ->
  (exists m, fit1 (DRange p) (map fst (clean_records sp d)) = Ok m) ->
  exists t, pw_outlier_fit k (Some (OneArray (DRange p))) sp f d = Ok t /\ (r_length p * zq (length (clean_records sp d)) + 1 <= zq (length (on_clean t)))%Q /\
    (r_length p * zq (length (on_clean t)) + 1 <= inject_Z (bins_records k t))%Q.
Proof.
  intros k p sp f d Em Hk N0 [m1 E1]. set (l := clean_records sp d) in *. assert (N0' : map fst l <> []) by (destruct l; [congruence|discriminate]).
  destruct (proj1 (C47_fit_succeeds (DRange p) _ N0') (ex_intro _ m1 E1)) as (B1 & B2 & B3). rewrite Em, map_length in B3.
  assert (R1 : remove_outliers (Some (OneArray (DRange p))) l = Ok (select (mnot m1) l)) by (unfold remove_outliers, detect; now rewrite E1). set (once := select (mnot m1) l) in *.
  destruct (one_pass _ _ _ R1) as (m1' & E1' & L1). assert (m1' = m1) by congruence. subst m1'.
  pose proof (C47_range_removes_few p _ m1 E1 Hk N0') as G1. rewrite Em, map_length in G1.
  assert (Q1 : (zq (length l) == zq (length once) + zq (count_true m1))%Q) by (unfold zq; rewrite <- inject_Z_plus; apply inject_Z_injective; lia).
  assert (P1 : (r_length p * zq (length l) + 1 <= zq (length once))%Q) by lra.
  assert (Z0 : forall n, (0 <= zq n)%Q) by (intros n; unfold zq; change 0%Q with (inject_Z 0); rewrite <- Zle_Qle; lia).
  assert (P2 : (1 <= zq (length once))%Q) by (pose proof (Qmult_le_0_compat _ _ B1 (Z0 (length l))); lra).
  assert (N1 : once <> []) by (intros E; rewrite E in P2; change (zq (length (@nil (Z * Z)))) with 0%Q in P2; lra). assert (N1' : map fst once <> []) by (destruct once; [congruence|discriminate]).
  assert (P3 : (r_length p * zq (length once) <= zq (length once) - 1)%Q).
  { assert (G : forall a b c : Q, (0 <= a -> a <= 1 -> a * b <= b - 1 -> a * b + 1 <= c -> a * c <= c - 1)%Q).
    { intros a b c A1 A2 A3 A4. assert (B4 : (0 <= (1 - a) * (c - (a * b + 1)))%Q) by (apply Qmult_le_0_compat; lra). assert (B5 : (0 <= a * (b - 1 - a * b))%Q) by (apply Qmult_le_0_compat; lra).
      assert (E : (c - 1 - a * c == (1 - a) * (c - (a * b + 1)) + a * (b - 1 - a * b))%Q) by ring. rewrite (Qle_minus_iff (a * c) (c - 1)). setoid_replace (c - 1 + - (a * c))%Q with (c - 1 - a * c)%Q by ring. rewrite E. lra. }
    exact (G _ _ _ B1 B2 B3 P1). }
  destruct (proj2 (C47_fit_succeeds (DRange p) _ N1')) as [m2 E2]; [rewrite Em, map_length; auto|].
  assert (R2 : remove_outliers (Some (OneArray (DRange p))) once = Ok (select (mnot m2) once)) by (unfold remove_outliers, detect; now rewrite E2). set (twice := select (mnot m2) once) in *.
  destruct (one_pass _ _ _ R2) as (m2' & E2' & L2). assert (m2' = m2) by congruence. subst m2'.
  pose proof (C47_range_removes_few p _ m2 E2 Hk N1') as G2. rewrite Em, map_length in G2.
  assert (Q2 : (zq (length once) == zq (length twice) + zq (count_true m2))%Q) by (unfold zq; rewrite <- inject_Z_plus; apply inject_Z_injective; lia).
  assert (P4 : (r_length p * zq (length once) + 1 <= zq (length twice))%Q) by lra.
  assert (N2 : twice <> []). { intros E. rewrite E in P4. pose proof (Qmult_le_0_compat _ _ B1 (Z0 (length once))) as G. change (zq (length (@nil (Z * Z)))) with 0%Q in P4. lra. }
  assert (F : pw_outlier_fit k (Some (OneArray (DRange p))) sp f d = Ok (mkPWO once (f twice) (count_rows k (f twice) twice) (Z.of_nat (length (filter (k_special sp) (recs d)))) (Z.of_nat (length (filter k_missing (recs d)))))).
  { unfold pw_outlier_fit. cbv zeta. rewrite clean_eq. fold l. rewrite R1. cbn [rbind]. destruct once as [|r0 once0]; [congruence|]. rewrite R2. cbn [rbind]. destruct twice; [congruence|reflexivity]. }
  eexists. split; [exact F|]. cbn [on_clean]. split; [exact P1|]. unfold bins_records. cbn [on_rows]. rewrite bins_total. exact P4.
Qed.
Print Assumptions C92_density_second_pass.

(** A value that more than half of the clean records have: with the z-score both passes leave exactly these records. *)
Theorem C92_zscore_majority : forall k thr sp f d t c, pw_outlier_fit k (Some (OneArray (DZScore thr))) sp f d = Ok t ->
  (length (clean_records sp d) < 2 * length (filter (fun r => (c =? fst r)%Z) (clean_records sp d)))%nat ->
  on_clean t = filter (fun r => (c =? fst r)%Z) (clean_records sp d) /\ bins_records k t = Z.of_nat (length (on_clean t)).
Proof.
  intros k thr sp f d t c H Hc. pose proof H as H0. destruct (fit_inv _ _ _ _ _ _ H) as (twice & R1 & R2 & N1 & N2 & Es & Er). set (l := clean_records sp d) in *.
  assert (Fl : forall l : list (Z * Z), length (filter (Z.eqb c) (map fst l)) = length (filter (fun r => c =? fst r) l)).
  { intros l0. induction l0 as [|r l0 IH]; [reflexivity|]. cbn [map filter]. destruct (c =? fst r); cbn [length]; now rewrite IH. }
  assert (St : forall l l' : list (Z * Z), remove_outliers (Some (OneArray (DZScore thr))) l = Ok l' -> (length l < 2 * length (filter (fun r => (c =? fst r)%Z) l))%nat -> l' = filter (fun r => c =? fst r) l).
  { intros l0 l0' R Hm. unfold remove_outliers, detect in R. destruct (fit1 (DZScore thr) (map fst l0)) as [m|] eqn:E; [|discriminate]. cbn [rbind] in R. injection R as <-.
    rewrite (C47_zscore_majority _ _ _ c E) by (now rewrite map_length, Fl). rewrite map_map. clear. unfold mnot. rewrite map_map. induction l0 as [|r l0 IH]; [reflexivity|]. cbn [map select filter]. rewrite negb_involutive, (Z.eqb_sym c). destruct (fst r =? c); now rewrite IH. }
  pose proof (St _ _ R1 Hc) as E1. split; [exact E1|]. apply (proj2 (proj2 (C92_all_counted _ _ _ _ _ _ H0))). rewrite R2. f_equal.
  assert (E2 : filter (fun r => c =? fst r) (on_clean t) = on_clean t).
  { rewrite E1. generalize l. induction l0 as [|r l0 IH]; [reflexivity|]. cbn [filter]. destruct (c =? fst r) eqn:X; [|exact IH]. cbn [filter]. rewrite X. now rewrite IH. }
  rewrite (St _ _ R2); [exact E2|]. rewrite E2. destruct (on_clean t); [congruence|cbn; lia].
Qed.
Print Assumptions C92_zscore_majority.

(** The bins of the table may lose records that are no outliers of the data: with the default parameters 20 is removed only because 100 was.
    The record takes part in the regression, but no row of the table counts it. *)
Definition ex_data : pdata := mkPD [(XNum 1, Some 0); (XNum 2, Some 1); (XNum 3, Some 0); (XNum 4, Some 1); (XNum 5, Some 0); (XNum 10, Some 1); (XNum 100, Some 0); (XNaN, Some 1)] false.
Theorem C92_second_pass_refuted : exists dt sp f d once, without_outliers dt (clean_records sp d) once /\ In (10, 1) once /\
  forall k, exists t, pw_outlier_fit k (Some dt) sp f d = Ok t /\ nondecreasing (on_splits t) /\ on_clean t = once /\ bins_records k t = Z.of_nat (length once) - 1 /\
    (k = PWBinary -> on_rows t = [(1, 1); (2, 1)]).
Proof.
  exists (OneArray (DRange default_range)), SpNone, (fun _ => [3]), ex_data, [(1, 0); (2, 1); (3, 0); (4, 1); (5, 0); (10, 1)].
  split; [apply remove_spec; [discriminate|vm_compute; reflexivity]|]. split; [cbn; tauto|].
  intros k. destruct k; (eexists; split; [vm_compute; reflexivity|]; split; [repeat constructor|]; split; [reflexivity|]; split; [vm_compute; reflexivity|]); [reflexivity|discriminate].
Qed.
Print Assumptions C92_second_pass_refuted.

Example C92_hyps_met :
  (exists t, pw_outlier_fit PWContinuous (Some (OneArray (DRange default_range))) SpNone (fun _ => [3]) ex_data = Ok t /\ bins_records PWContinuous t = 5 /\ on_missing t = 1) /\
  (exists t, pw_outlier_fit PWBinary (Some (OneArray (DZScore (7 # 2)))) SpNone (fun _ => [3]) ex_data = Ok t /\ bins_records PWBinary t = 6) /\
  (exists t, pw_outlier_fit PWBinary (Some (YQuantile (DZScore (7 # 2)) 2)) (SpList [XNum 100]) (fun _ => [3]) ex_data = Ok t /\ bins_records PWBinary t = 4 /\ on_special t = 1) /\
  (exists m, fit1 (DRange {| r_length := 1 # 2; r_k := 1 # 1; r_method := HDI |}) (map fst (clean_records SpNone ex_data)) = Ok m) /\
  ((1 - r_length default_range) * (zq (length (clean_records SpNone ex_data)) - 1) <= 2 * zq 2)%Q.
Proof.
  split; [eexists; split; [vm_compute; reflexivity|]; split; reflexivity|]. split; [eexists; split; [vm_compute; reflexivity|]; reflexivity|].
  split; [eexists; split; [vm_compute; reflexivity|]; split; reflexivity|]. split; [eexists; vm_compute; reflexivity|]. vm_compute. discriminate.
Qed.
Definition ex_major : pdata := mkPD [(XNum 5, Some 0); (XNum 5, Some 1); (XNum 6, Some 0); (XNum 5, Some 1); (XNum 5, Some 0); (XNum 4, Some 1)] false.
Example C92_majority_met : exists t, pw_outlier_fit PWBinary (Some (OneArray (DZScore (7 # 2)))) SpNone (fun _ => []) ex_major = Ok t /\
  (length (clean_records SpNone ex_major) < 2 * length (filter (fun r => (5 =? fst r)%Z) (clean_records SpNone ex_major)))%nat.
Proof. eexists. split; [vm_compute; reflexivity|]. vm_compute. lia. Qed.
