(** Contingency tables: the statistic of the code, merging of rows, Cramer's V. *)
From Coq Require Import List ZArith Bool Arith Lia Reals Lra.
From Verif Require Import Model.Arr Model.Core Model.Multi Model.Metrics Model.MultiT Model.MultiTable
  Spec.MetricsSpec Spec.MultiTableSpec Proofs.ArrP Proofs.MetricsP Proofs.MetricsQ Proofs.MultiTableP Proofs.MultiTableQ.
Import ListNotations.
Open Scope R_scope.

Definition oc (k : nat) (col : list Z) : R := IZR (at_row k col).
Lemma index_sum {A} (F : A -> R) d (l : list A) : rsum (map (fun c => F (nth c l d)) (seq 0 (length l))) = rsum (map F l).
Proof. rewrite <- (map_map (fun c => nth c l d) F). now rewrite map_nth_seq. Qed.

Section Chi.
Variables (rows : nat) (cols : list (list Z)).
Hypothesis Hok : table_ok rows cols.
Lemma oc_row k : rsum (map (oc k) cols) = row_sum cols k.
Proof. unfold row_sum. rewrite IZR_zsum, map_map. reflexivity. Qed.
Lemma oc_col col : In col cols -> rsum (map (fun k => oc k col) (seq 0 rows)) = IZR (zsum col).
Proof. intros H. unfold oc. rewrite <- (t_len _ _ Hok col H), <- (map_map (fun k => at_row k col) IZR). unfold at_row. now rewrite map_nth_seq, <- IZR_zsum. Qed.
Lemma oc_grand : rsum (map (fun k => rsum (map (oc k) cols)) (seq 0 rows)) = grand cols.
Proof. rewrite rsum_swap. unfold grand. rewrite IZR_zsum, map_map. apply rsum_ext. intros col H. now apply oc_col. Qed.
Lemma oc_nonneg k col : In col cols -> 0 <= oc k col.
Proof.
  intros H. apply IZR_le. unfold at_row. destruct (nth_in_or_default k col 0%Z) as [Hi| ->]; [|lia]. destruct Hok as [_ G].
  destruct (G col H) as (_ & Hc' & _). now apply Hc'.
Qed.
Lemma pearson_chi : pearson rows cols = chi (seq 0 rows) cols oc.
Proof.
  unfold pearson, chi. change total with rsum. apply rsum_ext. intros k _. apply rsum_ext. intros col Hc. cbv zeta.
  rewrite oc_grand, oc_row, oc_col by exact Hc. reflexivity.
Qed.
Hypothesis Hrows : forall k, (k < rows)%nat -> 0 < row_sum cols k.
Hypothesis Hpos : (0 < rows)%nat.

Lemma HR' k : In k (seq 0 rows) -> 0 < rsum (map (oc k) cols).
Proof. intros H. apply in_seq in H. rewrite oc_row. apply Hrows. lia. Qed.
Lemma HC' col : In col cols -> 0 < rsum (map (fun k => oc k col) (seq 0 rows)).
Proof. intros H. rewrite oc_col by exact H. exact (t_sum_pos _ _ Hok col H). Qed.
Lemma Hks' : seq 0 rows <> [].
Proof. destruct rows; [lia|discriminate]. Qed.
Lemma grand_pos : 0 < grand cols.
Proof. rewrite <- oc_grand. exact (N_pos (seq 0 rows) cols oc HR' Hks'). Qed.
Lemma pearson_facts : 0 <= pearson rows cols /\ (pearson rows cols = 0 <-> independent rows cols) /\
  pearson rows cols <= grand cols * (INR (length cols) - 1) /\ pearson rows cols <= grand cols * (INR rows - 1).
Proof.
  rewrite pearson_chi.
  assert (P : forall k c, In k (seq 0 rows) -> In c cols -> 0 <= oc k c) by (intros; now apply oc_nonneg).
  split; [exact (chi_nonneg _ _ _ HR' HC' Hks')|]. split; [|split].
  - rewrite (chi_zero _ _ _ HR' HC' Hks'). unfold independent. rewrite oc_grand. split.
    + intros H k col Hk Hc. specialize (H k col (proj2 (in_seq _ _ _) (conj (Nat.le_0_l k) Hk)) Hc). rewrite oc_row, oc_col in H by exact Hc. exact H.
    + intros H k col Hk Hc. rewrite oc_row, oc_col by exact Hc. apply H; [|exact Hc]. apply in_seq in Hk. lia.
  - rewrite <- oc_grand. exact (chi_upper_c _ _ _ P HR' HC' Hks').
  - rewrite <- oc_grand. pose proof (chi_upper_k _ _ _ P HR' HC' Hks') as H. rewrite seq_length in H. exact H.
Qed.
Lemma mt_row_sum k : IZR (mt_row cols k) = row_sum cols k.
Proof. reflexivity. Qed.
Lemma chi2_value : chi2_contingency cols = Ok (pearson rows cols).
Proof.
  unfold chi2_contingency. rewrite (t_rows _ _ Hok).
  assert (E1 : existsb (fun k => Z.eqb (mt_row cols k) 0) (seq 0 rows) = false).
  { apply not_true_is_false. intros E. apply existsb_exists in E as (k & Hk & E). apply Z.eqb_eq in E. apply in_seq in Hk.
    assert (Hk' : (k < rows)%nat) by lia. pose proof (Hrows k Hk') as H. rewrite <- mt_row_sum, E in H. lra. }
  assert (E2 : existsb (fun c => Z.eqb (zsum (nth c cols [])) 0) (seq 0 (length cols)) = false).
  { apply not_true_is_false. intros E. apply existsb_exists in E as (c & Hc & E). apply Z.eqb_eq in E. apply in_seq in Hc.
    assert (In (nth c cols []) cols) by (apply nth_In; lia). pose proof (t_sum_pos _ _ Hok _ H) as G. rewrite E in G. lra. }
  rewrite E1, E2. cbn [orb]. f_equal. unfold pearson. change total with rsum. apply rsum_ext. intros k _. cbv zeta.
  rewrite <- (index_sum (fun col => (IZR (at_row k col) - row_sum cols k * IZR (zsum col) / grand cols) ^ 2 / (row_sum cols k * IZR (zsum col) / grand cols)) [] cols).
  reflexivity.
Qed.
Lemma cramer_multi : (2 <= rows)%nat -> (2 <= length cols)%nat ->
  exists v, chi2_cramer_v_multi cols = Ok (pearson rows cols, v) /\ 0 <= v <= 1 /\ (v = 0 <-> independent rows cols).
Proof.
  intros H1 H2. unfold chi2_cramer_v_multi. rewrite chi2_value, (t_rows _ _ Hok). eexists. split; [reflexivity|].
  destruct pearson_facts as (A & B & C & D). pose proof grand_pos as G. fold (grand cols).
  set (m := min (length cols - 1) (rows - 1)).
  assert (Hm : 0 < INR m) by (apply lt_0_INR; unfold m; lia).
  assert (U : pearson rows cols <= grand cols * INR m).
  { unfold m. destruct (Nat.min_spec (length cols - 1) (rows - 1)) as [[_ ->]|[_ ->]]; rewrite minus_INR by lia; cbn [INR]; assumption. }
  set (q := pearson rows cols / grand cols / INR m).
  assert (Q0 : 0 <= q).
  { unfold q, Rdiv. repeat apply Rmult_le_pos; try assumption; left; now apply Rinv_0_lt_compat. }
  assert (Q1 : q <= 1).
  { unfold q. apply Rmult_le_reg_r with (grand cols * INR m); [nra|].
    replace (pearson rows cols / grand cols / INR m * (grand cols * INR m)) with (pearson rows cols) by (field; lra). lra. }
  split; [split; [apply sqrt_pos|]|].
  - rewrite <- sqrt_1. apply sqrt_le_1; lra.
  - rewrite <- B. split.
    + intros E. apply sqrt_eq_0 in E; [|exact Q0]. replace (pearson rows cols) with (q * (grand cols * INR m)) by (unfold q; field; lra). rewrite E. ring.
    + intros E. unfold q. rewrite E. unfold Rdiv. rewrite !Rmult_0_l. apply sqrt_0.
Qed.
End Chi.

Lemma cramer_binary rows nev ev : table_ok rows [nev; ev] -> (forall k, (k < rows)%nat -> 0 < row_sum [nev; ev] k) -> (0 < rows)%nat ->
  exists v, chi2_cramer_v nev ev = Ok (pearson rows [nev; ev], v) /\ 0 <= v <= 1 /\ (v = 0 <-> independent rows [nev; ev]) /\
    v = sqrt (pearson rows [nev; ev] / grand [nev; ev]).
Proof.
  intros Hok Hr Hp. unfold chi2_cramer_v. rewrite (chi2_value rows _ Hok Hr Hp). eexists. split; [reflexivity|].
  destruct (pearson_facts rows _ Hok Hr Hp) as (A & B & C & D). pose proof (grand_pos rows _ Hok Hr Hp) as G.
  assert (E : IZR (zsum nev) + IZR (zsum ev) = grand [nev; ev]) by (unfold grand; cbn [map zsum]; rewrite !plus_IZR; ring).
  rewrite E. set (q := pearson rows [nev; ev] / grand [nev; ev]).
  cbn [length INR] in C.
  assert (Q0 : 0 <= q) by (apply Rmult_le_pos; [assumption|left; now apply Rinv_0_lt_compat]).
  assert (Q1 : q <= 1).
  { unfold q. apply Rmult_le_reg_r with (grand [nev; ev]); [exact G|]. replace (pearson rows [nev; ev] / grand [nev; ev] * grand [nev; ev]) with (pearson rows [nev; ev]) by (field; lra). lra. }
  split; [split; [apply sqrt_pos|]|split].
  - rewrite <- sqrt_1. apply sqrt_le_1; lra.
  - rewrite <- B. split.
    + intros E'. apply sqrt_eq_0 in E'; [|exact Q0]. replace (pearson rows [nev; ev]) with (q * grand [nev; ev]) by (unfold q; field; lra). rewrite E'. ring.
    + intros E'. unfold q. rewrite E'. unfold Rdiv. rewrite Rmult_0_l. apply sqrt_0.
  - reflexivity.
Qed.

(** * Merging rows *)
Lemma titu a b r s : 0 < r -> 0 < s -> (a + b) * (a + b) / (r + s) <= a * a / r + b * b / s.
Proof.
  intros. assert (P : 0 < r * s * (r + s)) by (apply Rmult_lt_0_compat; nra). apply Rmult_le_reg_r with (r * s * (r + s)); [exact P|].
  replace ((a + b) * (a + b) / (r + s) * (r * s * (r + s))) with ((a + b) * (a + b) * (r * s)) by (field; lra).
  replace ((a * a / r + b * b / s) * (r * s * (r + s))) with ((a * a * s + b * b * r) * (r + s)) by (field; lra).
  pose proof (pow2_ge_0 (a * s - b * r)). nra.
Qed.
Lemma titu_list {K} (a r : K -> R) g : g <> [] -> (forall k, In k g -> 0 < r k) ->
  0 < rsum (map r g) /\ rsum (map a g) * rsum (map a g) / rsum (map r g) <= rsum (map (fun k => a k * a k / r k) g).
Proof.
  induction g as [|k g IH]; intros Hn H; [congruence|]. destruct g as [|k' g'].
  - cbn [map rsum]. rewrite !Rplus_0_r. split; [apply H; now left|lra].
  - destruct IH as [P Q]; [discriminate|intros; apply H; now right|]. set (g := k' :: g') in *. pose proof (H k (or_introl eq_refl)) as Hk.
    change (map r (k :: g)) with (r k :: map r g). change (map a (k :: g)) with (a k :: map a g).
    change (map (fun k0 => a k0 * a k0 / r k0) (k :: g)) with (a k * a k / r k :: map (fun k0 => a k0 * a k0 / r k0) g). cbn [rsum].
    split; [lra|]. pose proof (titu (a k) (rsum (map a g)) (r k) (rsum (map r g)) Hk P). lra.
Qed.
Lemma chi_merge {K C} (groups : list (list K)) (cs : list C) (O : K -> C -> R) :
  (forall k, In k (concat groups) -> 0 < rsum (map (O k) cs)) -> (forall c, In c cs -> 0 < rsum (map (fun k => O k c) (concat groups))) ->
  groups <> [] -> (forall g, In g groups -> g <> []) ->
  chi groups cs (fun g c => rsum (map (fun k => O k c) g)) <= chi (concat groups) cs O.
Proof.
  intros HR HC Hne Hg.
  assert (S1 : forall g, rsum (map (fun c => rsum (map (fun k => O k c) g)) cs) = rsum (map (fun k => rsum (map (O k) cs)) g)) by (intros; symmetry; apply rsum_swap).
  assert (In_g : forall g k, In g groups -> In k g -> In k (concat groups)) by (intros; apply in_concat; eauto).
  assert (HR2 : forall g, In g groups -> 0 < rsum (map (fun c => rsum (map (fun k => O k c) g)) cs)).
  { intros g Hin. rewrite S1. apply (titu_list (fun _ => 0) (fun k => rsum (map (O k) cs)) g); [now apply Hg|]. intros k Hk. apply HR. eauto. }
  assert (HC2 : forall c, In c cs -> 0 < rsum (map (fun g => rsum (map (fun k => O k c) g)) groups)) by (intros c Hc; rewrite rsum_concat; now apply HC).
  assert (Hne2 : concat groups <> []).
  { destruct groups as [|g l]; [congruence|]. intros E. apply app_eq_nil in E as [E _]. apply (Hg g); [now left|exact E]. }
  rewrite (chi_expand groups cs _ HR2 HC2 Hne), (chi_expand (concat groups) cs O HR HC Hne2).
  assert (EN : rsum (map (fun g => rsum (map (fun c => rsum (map (fun k => O k c) g)) cs)) groups) = rsum (map (fun k => rsum (map (O k) cs)) (concat groups))).
  { rewrite <- rsum_concat. apply rsum_ext. intros g _. apply S1. }
  rewrite EN. apply Rplus_le_compat_r. apply Rmult_le_compat_l; [left; exact (N_pos (concat groups) cs O HR Hne2)|].
  rewrite <- rsum_concat. apply rsum_le. intros g Hin.
  rewrite (rsum_swap (fun k c => O k c * O k c / (rsum (map (O k) cs) * rsum (map (fun k0 => O k0 c) (concat groups)))) g cs). apply rsum_le. intros c Hc.
  rewrite rsum_concat, S1. pose proof (HC c Hc) as Hcp. set (D := rsum (map (fun k => O k c) (concat groups))) in *.
  destruct (titu_list (fun k => O k c) (fun k => rsum (map (O k) cs)) g (Hg g Hin) (fun k Hk => HR k (In_g g k Hin Hk))) as [P Q].
  cbv beta in P, Q.
  apply Rle_trans with (rsum (map (fun k => O k c * O k c / rsum (map (O k) cs)) g) * / D).
  - match goal with |- ?u <= _ => replace u with (rsum (map (fun k => O k c) g) * rsum (map (fun k => O k c) g) / rsum (map (fun k => rsum (map (O k) cs)) g) * / D) by (field; lra) end.
    apply Rmult_le_compat_r; [left; now apply Rinv_0_lt_compat|exact Q].
  - right. rewrite <- rsum_mult. apply rsum_ext. intros k Hk. pose proof (HR k (In_g g k Hin Hk)). field. lra.
Qed.
Lemma chi_map_c {K C D} (m : D -> C) (ks : list K) (cs : list D) O : chi ks (map m cs) O = chi ks cs (fun k c => O k (m c)).
Proof.
  unfold chi. apply rsum_ext. intros k _. rewrite !map_map.
  assert (E : rsum (map (fun k0 => rsum (map (O k0) (map m cs))) ks) = rsum (map (fun k0 => rsum (map (fun c => O k0 (m c)) cs)) ks))
    by (apply rsum_ext; intros; now rewrite map_map).
  apply rsum_ext. intros c _. rewrite E. reflexivity.
Qed.
Lemma chi_map_k {K C J} (h : J -> K) (ks : list J) (cs : list C) O : chi (map h ks) cs O = chi ks cs (fun k c => O (h k) c).
Proof.
  unfold chi. rewrite !map_map. apply rsum_ext. intros k _. apply rsum_ext. intros c _. rewrite !map_map. reflexivity.
Qed.
Lemma chi_ext {K C} (ks : list K) (cs : list C) O P : (forall k c, In k ks -> In c cs -> O k c = P k c) -> chi ks cs O = chi ks cs P.
Proof.
  intros H. unfold chi.
  assert (E1 : forall k, In k ks -> rsum (map (O k) cs) = rsum (map (P k) cs)) by (intros k Hk; apply rsum_ext; auto).
  assert (E2 : forall c, In c cs -> rsum (map (fun k => O k c) ks) = rsum (map (fun k => P k c) ks)) by (intros c Hc; apply rsum_ext; auto).
  assert (E3 : rsum (map (fun k => rsum (map (O k) cs)) ks) = rsum (map (fun k => rsum (map (P k) cs)) ks)) by (now apply rsum_ext).
  apply rsum_ext. intros k Hk. apply rsum_ext. intros c Hc. rewrite H, E1, E2, E3 by assumption. reflexivity.
Qed.
Lemma pearson_merge rows cols groups : table_ok rows cols -> (forall k, (k < rows)%nat -> 0 < row_sum cols k) -> (0 < rows)%nat ->
  concat groups = seq 0 rows -> (forall g, In g groups -> g <> []) ->
  pearson (length groups) (merge_cols groups cols) <= pearson rows cols /\ grand (merge_cols groups cols) = grand cols.
Proof.
  intros Hok Hr Hp Hg Hne. destruct (merge_ok rows cols groups Hok Hg) as [Hm Hs].
  assert (Hgn : groups <> []) by (intros E; rewrite E in Hg; destruct rows; [lia|discriminate]).
  split.
  - rewrite (pearson_chi _ _ Hm), (pearson_chi _ _ Hok). rewrite <- Hg.
    refine (Rle_trans _ _ _ _ (chi_merge groups cols oc _ _ Hgn Hne)).
    + right. unfold merge_cols. rewrite chi_map_c.
      transitivity (chi (map (fun k => nth k groups []) (seq 0 (length groups))) cols (fun g c => rsum (map (fun k => oc k c) g))); [|now rewrite map_nth_seq].
      rewrite chi_map_k. apply chi_ext. intros k c Hk Hc. unfold oc at 1, at_row at 1.
      pose proof (map_nth (fun g => zsum (map (fun k => at_row k c) g)) groups [] k) as M. cbn [map zsum] in M. rewrite M.
      rewrite IZR_zsum, map_map. reflexivity.
    + rewrite Hg. exact (HR' rows cols Hr Hp).
    + rewrite Hg. exact (HC' rows cols Hok).
  - unfold grand, merge_cols. rewrite map_map. f_equal. f_equal. apply map_ext_in. exact Hs.
Qed.
Lemma merge_row_pos rows cols groups : (forall k, (k < rows)%nat -> 0 < row_sum cols k) -> concat groups = seq 0 rows -> (forall g, In g groups -> g <> []) ->
  forall k, (k < length groups)%nat -> 0 < row_sum (merge_cols groups cols) k.
Proof.
  intros Hr Hg Hne k Hk. set (g := nth k groups []). assert (Hin : In g groups) by (now apply nth_In).
  assert (E : row_sum (merge_cols groups cols) k = rsum (map (row_sum cols) g)).
  { unfold row_sum, merge_cols. rewrite IZR_zsum, !map_map.
    transitivity (rsum (map (fun c => rsum (map (fun j => IZR (at_row j c)) g)) cols)).
    - apply rsum_ext. intros c _. unfold at_row at 1. pose proof (map_nth (fun g => zsum (map (fun k => at_row k c) g)) groups [] k) as M. cbn [map zsum] in M.
      rewrite M. fold g. rewrite IZR_zsum, map_map. reflexivity.
    - rewrite rsum_swap. apply rsum_ext. intros j _. rewrite IZR_zsum, map_map. reflexivity. }
  rewrite E. apply rsum_pos; [now apply Hne|]. intros j Hj. apply Hr. assert (Hc : In j (concat groups)) by (apply in_concat; eauto).
  rewrite Hg in Hc. apply in_seq in Hc. lia.
Qed.
