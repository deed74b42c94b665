(** Rows of the continuous 2D table, and the value metrics of the 2D transforms. *)
From Coq Require Import List ZArith QArith Qfield Lia Bool Arith Permutation.
From Verif Require Import Model.Arr Model.Core Model.TwoD Model.TwoDCont Spec.CoreSpec Spec.TwoDSpec Spec.TwoDContSpec
  Proofs.ArrP Proofs.CoreP Proofs.TwoDP Proofs.TwoDQ Proofs.TwoDR Proofs.TwoDS Proofs.TwoDT Proofs.TwoDU Proofs.TwoDV Proofs.TwoDC.
Import ListNotations.
Open Scope nat_scope.

Lemma lands3_lands ax ay cx cy f b s : lands3 ax ay cx cy f b s = lands ax ay cx cy (k_fit f) b (as2 s).
Proof. reflexivity. Qed.

Section Rows.
Variables (ax ay : axis) (cx cy : option (list xval)) (sx sy fe fne : list Z) (srs : list rect) (sp mi : Z * Z) (f : fitted3) (data : list sample3).
Let clean := filter (clean3 cx cy) data.
Let n := S (length sx). Let m := S (length sy).
Hypothesis HF : fit_of sx sy fe fne srs sp mi (k_fit f).
Hypothesis HT : tiling m n srs.
Hypothesis Hsx : nondecreasing sx.
Hypothesis Hsy : nondecreasing sy.
Hypothesis Ax : axis_ok ax (map c_x clean).
Hypothesis Ay : axis_ok ay (map c_y clean).
Lemma clean3_known s : In s data -> clean3 cx cy s = true -> known ax (c_x s) /\ known ay (c_y s).
Proof.
  intros Hs Hc. destruct (clean_not_null _ _ _ Hc) as (N1 & N2 & _).
  assert (In s clean) by (apply filter_In; auto).
  split; [eapply clean_known; [exact Ax|now apply in_map|exact N1]|eapply clean_known; [exact Ay|now apply in_map|exact N2]].
Qed.
Lemma group3 b r : nth_error srs b = Some r ->
  filter (lands3 ax ay cx cy f b) data = filter (fun s => nmem (key3 ax ay sx sy s) (cells n r)) clean.
Proof.
  intros Hr. unfold clean. rewrite filter_filter. apply filter_ext_len. intros s Hs. rewrite lands3_lands.
  rewrite (lands_rect _ _ _ _ _ _ _ (k_fit f) ax ay cx cy HF HT Hsx Hsy b r (as2 s) Hr eq_refl (clean3_known s Hs)). reflexivity.
Qed.
End Rows.

(** * variance *)
Lemma dev_sum (mu : Q) (l : list sample3) :
  fold_right Qplus 0%Q (map (fun s => (inject_Z (c_z s) - mu) * (inject_Z (c_z s) - mu)) l)%Q ==
  inject_Z (zsum (map sq3 l)) - 2 * mu * inject_Z (total3 l) + inject_Z (count3 l) * mu * mu.
Proof.
  induction l as [|s l IH]; [unfold total3, count3; cbn; ring|]. cbn [map fold_right]. rewrite IH. unfold total3, count3, sq3.
  cbn [map zsum length]. rewrite Nat2Z.inj_succ, <- Z.add_1_r, !inject_Z_plus, inject_Z_mult. change (inject_Z 1) with 1%Q. ring.
Qed.
Lemma count3_pos l : l <> [] -> ~ inject_Z (count3 l) == 0.
Proof. destruct l as [|s l]; [congruence|]. intros _ H. unfold count3, Qeq in H. cbn [length inject_Z Qnum Qden] in H. lia. Qed.
Lemma sq_dev3_eq l : l <> [] ->
  sq_dev3 l == qmean (zsum (map sq3 l)) (count3 l) - qmean (total3 l) (count3 l) * qmean (total3 l) (count3 l).
Proof.
  intros H. unfold sq_dev3. destruct l as [|s0 l0] eqn:E; [congruence|]. rewrite <- E in *. rewrite dev_sum.
  assert (Em : mean3 l = (inject_Z (total3 l) / inject_Z (count3 l))%Q) by (rewrite E; reflexivity).
  rewrite Em. unfold qmean. pose proof (count3_pos l H). field. assumption.
Qed.
Lemma np_var_dev l : np_var (map c_z l) = sq_dev3 l.
Proof.
  unfold np_var, sq_dev3. destruct l as [|s l]; [reflexivity|].
  change (map c_z (s :: l)) with (c_z s :: map c_z l). cbv iota. change (c_z s :: map c_z l) with (map c_z (s :: l)).
  rewrite map_length, map_map. reflexivity.
Qed.
Lemma sq_dev3_nonneg l : (0 <= sq_dev3 l)%Q.
Proof.
  unfold sq_dev3. destruct l as [|s l0] eqn:E; [apply Qle_refl|]. rewrite <- E.
  apply Qle_shift_div_l.
  - rewrite E. unfold count3, Qlt. cbn [length inject_Z Qnum Qden]. lia.
  - rewrite Qmult_0_l. generalize (mean3 l). intros mu. clear E. induction l as [|a r IH]; [apply Qle_refl|]. cbn [map fold_right].
    apply Qle_trans with (0 + 0)%Q; [apply Qle_refl|]. apply Qplus_le_compat; [|exact IH].
    generalize (inject_Z (c_z a) - mu)%Q. intros d. unfold Qle, Qmult. cbn [Qnum Qden]. nia.
Qed.

(** * value metrics *)
Lemma transform2_value {V} ax ay cx cy f (ms mm : marg V) mv zero x y b v : (exists z, x = XNum z) -> (exists z, y = XNum z) -> no_code cx x -> no_code cy y ->
  (exists c d, nth_error (t_bx f) b = Some c /\ nth_error (t_by f) b = Some d /\ in_axis ax c x && in_axis ay d y = true) ->
  (forall b' c' d', nth_error (t_bx f) b' = Some c' -> nth_error (t_by f) b' = Some d' -> in_axis ax c' x && in_axis ay d' y = true -> b' = b) ->
  nth_error mv b = Some v ->
  transform2 ax ay cx cy f MValue ms mm mv zero x y = Ok v.
Proof.
  intros (zx & ->) (zy & ->) Hcx Hcy (c & d & Hc & Hd & H) Hu Hv. unfold transform2.
  assert (Es : special2 cx cy (XNum zx, XNum zy, Y0) = false) by (unfold special2, s_x, s_y; cbn [fst snd]; now rewrite !isin_no_code).
  assert (Em : missing2 (XNum zx, XNum zy, Y0) = false) by reflexivity.
  unfold clean2. rewrite Es, Em, andb_false_r. cbn [negb andb].
  rewrite (apply_bins_one ax ay 0 _ _ _ _ _ _ b c d Hc Hd H Hu). cbn [Nat.add]. unfold idx. now rewrite Hv.
Qed.
Lemma transform2_value_missing {V} ax ay cx cy f (ms mm : marg V) mv zero x y : x = XNaN \/ y = XNaN ->
  transform2 ax ay cx cy f MValue ms mm mv zero x y =
  match mm with Empirical => idx mv (S (length (t_bx f))) | Const _ v => Ok v end.
Proof.
  intros H. unfold transform2. assert (E : missing2 (x, y, Y0) = true).
  { unfold missing2, s_x, s_y. cbn. destruct H as [->| ->]; cbn; [reflexivity|]. now rewrite !orb_false_r, orb_true_r. }
  rewrite E. destruct mm; reflexivity.
Qed.
Lemma transform2_value_special {V} ax ay cx cy f (ms mm : marg V) mv zero x y : x <> XNaN -> y <> XNaN -> special2 cx cy (x, y, Y0) = true ->
  transform2 ax ay cx cy f MValue ms mm mv zero x y =
  match ms with Empirical => idx mv (length (t_bx f)) | Const _ v => Ok v end.
Proof.
  intros Hx Hy H. unfold transform2. assert (E : missing2 (x, y, Y0) = false).
  { destruct x; [congruence|]. destruct y; [congruence|]. reflexivity. }
  rewrite E, H, (special_truthy _ _ _ _ H). cbn [andb]. destruct ms; reflexivity.
Qed.
Lemma cut_nth {A V} (ms mm : marg V) k (l : list A) b : b < k -> nth_error (cut ms mm k l) b = nth_error l b.
Proof.
  intros Hb. unfold cut. destruct (is_empirical ms || is_empirical mm); [reflexivity|].
  revert b l Hb. induction k as [|k IH]; intros [|b] [|a l] Hb; try lia; try reflexivity. cbn [firstn nth_error]. apply IH. lia.
Qed.
Lemma cut_empirical {A V} (ms mm : marg V) k (l : list A) : ms = Empirical \/ mm = Empirical -> cut ms mm k l = l.
Proof. unfold cut. intros [-> | ->]; cbn [is_empirical]; rewrite ?orb_true_r; reflexivity. Qed.
Lemma column_nth {A B C} (h : A -> B -> C) l1 l2 b x y : nth_error l1 b = Some x -> nth_error l2 b = Some y ->
  nth_error (map2 h l1 l2) b = Some (h x y).
Proof.
  revert l1 l2. induction b as [|b IH]; intros [|a l1] [|a' l2] H1 H2; try discriminate; cbn in *.
  - injection H1 as ->. injection H2 as ->. reflexivity.
  - now apply IH.
Qed.
Lemma row_mean_q3 sx sy fs fr srs sp mi f b r : fit_of sx sy fs fr srs sp mi (k_fit f) -> nth_error srs b = Some r ->
  row_mean f b = q3 fr fs (S (length sx)) r.
Proof.
  intros HF H0. unfold row_mean, q3, k_sums, k_records. rewrite (fo_ne _ _ _ _ _ _ _ _ HF), (fo_e _ _ _ _ _ _ _ _ HF).
  assert (b < length srs) by (apply nth_error_Some; congruence).
  rewrite !app_nth1 by (now rewrite map_length). unfold qmean. f_equal; (erewrite nth_error_nth; [reflexivity|]; rewrite nth_error_map, H0; reflexivity).
Qed.
