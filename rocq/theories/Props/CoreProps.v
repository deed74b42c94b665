(** Property theorems for the numerical binning core. Statements use Spec.CoreSpec; proofs are
    references to lemmas. *)
From Coq Require Import List ZArith Bool Arith Permutation Sorting Lia.
From Verif Require Import Model.Arr Model.Core Spec.CoreSpec Proofs.CoreP Proofs.FitP Proofs.CoreFinal.
Import ListNotations.
Open Scope Z_scope.

(** C01: fit partitions the samples into clean / special / missing, in order, with targets and weights. *)
Theorem C01_split_partitions : forall xs ys sw sp,
  length xs = length ys -> length xs = length sw -> ~ In YNaN ys -> ~ In XNaN (flat_codes sp) ->
  let o := split_masks sp xs ys sw in
  let clean := rows (x_clean o) (y_clean o) (sw_clean o) in
  let missing := rows (x_missing o) (y_missing o) (sw_missing o) in
  let specl := rows (x_special o) (y_special o) (sw_special o) in
  subseq clean (rows xs ys sw) /\ subseq missing (rows xs ys sw) /\ subseq specl (rows xs ys sw) /\
  Permutation (clean ++ specl ++ missing) (rows xs ys sw) /\
  (forall r, In r missing <-> In r (rows xs ys sw) /\ is_missing_row r) /\
  (forall r, In r specl <-> In r (rows xs ys sw) /\ is_special_row (flat_codes sp) r) /\
  (forall r, In r clean <-> In r (rows xs ys sw) /\ ~ is_missing_row r
                           /\ ~ is_special_row (flat_codes sp) r).
Proof. exact C01_partition. Qed.
Print Assumptions C01_split_partitions.

Definition ex_xs := [XNum 3; XNaN; XNum 7; XNum (-9); XNum 5; XNum 1].
Definition ex_ys := [Y0; Y1; Y1; Y0; Y1; Y0].
Definition ex_sw := [1; 1; 1; 1; 1; 1].
Definition ex_sp := SpDict [(1, [XNum (-9)]); (2, [XNum (-8); XNum (-7)])].
Example C01_hyps_met : length ex_xs = length ex_ys /\ length ex_xs = length ex_sw /\ ~ In YNaN ex_ys /\
  ~ In XNaN (flat_codes ex_sp) /\ x_special (split_masks ex_sp ex_xs ex_ys ex_sw) = [XNum (-9)].
Proof. cbn. repeat split; try reflexivity; intuition discriminate. Qed.

(** C01 fails when the target has NaN (allowed with the default check_input=False): a special sample
    with NaN target is counted both as special and as missing. *)
Theorem C01_nan_target_refuted : exists xs ys sw sp,
  length xs = length ys /\ length xs = length sw /\ ~ In XNaN (flat_codes sp) /\
  let o := split_masks sp xs ys sw in
  (length (x_clean o) + length (x_special o) + length (x_missing o) > length xs)%nat.
Proof.
  exists [XNum 1; XNum (-9)], [Y0; YNaN], [1; 1], (SpList [XNum (-9)]).
  cbn. split; [reflexivity|]. split; [reflexivity|]. split; [intros [H|H]; [discriminate|exact H]|]. apply Nat.ltb_lt; vm_compute; reflexivity.
Qed.
Print Assumptions C01_nan_target_refuted.

(** C02: every value lies in exactly one displayed interval, and transform('indices') returns it. *)
Theorem C02_unique_bin : forall splits x, nondecreasing splits ->
  exists i, (i <= length splits)%nat /\ in_bin_i splits i x /\ forall j, in_bin_i splits j x -> j = i.
Proof. exact unique_bin. Qed.
Print Assumptions C02_unique_bin.

Theorem C02_transform_indices_is_bin : forall splits sp ms mm z k, nondecreasing splits ->
  ~ In (XNum z) (flat_codes sp) ->
  transform_indices splits sp ms mm (XNum z) = Ok k <->
  (exists i, k = Z.of_nat i /\ in_bin_i splits i z).
Proof. exact indices_are_bins. Qed.
Print Assumptions C02_transform_indices_is_bin.

(** ... and any other metric returns the value stored for that bin. *)
Theorem C02_transform_value_is_bin : forall V splits sp kd ms mm (mv : list V) u z i v,
  nondecreasing splits -> ~ In (XNum z) (flat_codes sp) -> in_bin_i splits i z ->
  nth_error mv i = Some v ->
  transform1_num splits sp kd ms mm mv u (XNum z) = Ok v.
Proof. exact @values_are_bins. Qed.
Print Assumptions C02_transform_value_is_bin.

Example C02_hyps_met : nondecreasing [2; 5] /\ in_bin_i [2; 5] 1 2 /\ in_bin_i [2; 5] 2 5 /\
  ~ in_bin_i [2; 5] 0 2.
Proof.
  repeat split; cbn; try lia; repeat constructor; try lia.
  intros [_ H]. cbn in H. lia.
Qed.

(** C03: the counts in every row of the fitted table are the training weights that transform sends
    to that row (weights integral: unit 1). *)
Theorem C03_table_matches_transform : forall d solver sp fixed user splits0 xs ys sw f,
  length xs = length ys -> length xs = length sw ->
  ~ In YNaN ys -> ~ In XNaN (flat_codes sp) -> sp_disjoint sp -> nondecreasing splits0 ->
  solver_ok solver ->
  fit_numerical 1 d solver sp fixed user splits0 xs ys sw = Some (Ok f) ->
  let n_rows := (S (length (f_splits f)) + n_special sp + 1)%nat in
  let weight_to := fun nonevent k => weight_of (fun r => Bool.eqb (y_is0 (row_y r)) nonevent &&
       match transform_indices (f_splits f) sp Empirical Empirical (row_x r) with
       | Ok z => Z.eqb z (Z.of_nat k) | Err _ => false end) (rows xs ys sw) in
  length (f_nev f) = n_rows /\ length (f_ev f) = n_rows /\
  forall k, (k < n_rows)%nat ->
    nth_error (f_nev f) k = Some (weight_to true k) /\
    nth_error (f_ev f) k = Some (weight_to false k).
Proof. exact C03_table. Qed.
Print Assumptions C03_table_matches_transform.

Definition ex_solver (a b : list Z) : list bool := repeat false (length a - 1) ++ [true].
Definition ex_solver_all (a b : list Z) : list bool := repeat true (length a).
Example C03_hyps_met : solver_ok ex_solver_all /\ sp_disjoint ex_sp /\
  exists f, fit_numerical 1 IV ex_solver_all ex_sp None None [4]
      [XNum 1; XNum 2; XNum 5; XNum 6; XNaN; XNum (-9); XNum (-7)]
      [Y0; Y1; Y1; Y0; Y1; Y0; Y1] [1;2;3;4;5;6;7] = Some (Ok f) /\
    f_splits f = [4] /\ f_nev f = [1; 4; 6; 0; 0] /\ f_ev f = [2; 3; 0; 7; 5].
Proof.
  split; [|split].
  - intros a b Hl Hn. unfold ex_solver_all. rewrite repeat_length. split; [reflexivity|].
    destruct (length a) as [|n]; [lia|]. clear. induction n; [reflexivity|]. exact IHn.
  - intros i j a b x Hi Hj Ha Hb.
    destruct i as [|[|[|i]]]; destruct j as [|[|[|j]]]; cbn in Hi, Hj; try discriminate; try reflexivity;
      injection Hi as <-; injection Hj as <-; cbn in Ha, Hb; intuition congruence.
  - eexists. repeat split; reflexivity.
Qed.

(** C05: refinement terminates; splits only removed; strictly increasing, non-pure prebins (iv/js);
    totals preserved. *)
Theorem C05_refinement_correct : forall wu d data fixed user nref flag splits,
  nondecreasing splits ->
  exists r, compute_prebins (S (length splits)) wu d data fixed user nref flag splits = Some r /\
  match r with
  | Err e => e = ValueError /\ fixed <> None
  | Ok pb =>
      subseq (pb_splits pb) splits /\
      (d = IV \/ d = JS -> increasing (pb_splits pb) /\
        (pb_splits pb = [] \/
         forall i, (i <= length (pb_splits pb))%nat ->
           bin_has (pb_splits pb) data i true /\ bin_has (pb_splits pb) data i false)) /\
      (wu = 1 -> pb_splits pb <> [] ->
         length (pb_nev pb) = S (length (pb_splits pb)) /\ length (pb_ev pb) = S (length (pb_splits pb)) /\
         zsum (pb_nev pb) = class_weight_total data true /\
         zsum (pb_ev pb) = class_weight_total data false)
  end.
Proof. exact C05_refinement. Qed.
Print Assumptions C05_refinement_correct.

Definition ex_data := map (fun t => {| cx := fst t; c0 := snd t; cw := 1 |})
  [(1, true); (2, true); (3, false); (4, true); (5, false); (6, false); (7, true)].
Example C05_hyps_met : nondecreasing [2; 4; 4; 6] /\
  exists pb, compute_prebins 5 1 IV ex_data None None 0 false [2; 4; 4; 6] = Some (Ok pb) /\
    pb_splits pb = [4; 6] /\ pb_nev pb = [2; 1; 1] /\ pb_ev pb = [1; 1; 1] /\ pb_nref pb = 1%nat.
Proof.
  split; [repeat constructor; lia|]. eexists. repeat split; vm_compute; reflexivity.
Qed.

(** C06 (refinement part): a fixed user split is kept, or fit raises. *)
Theorem C06_fixed_splits_kept : forall wu d data f user nref flag splits pb,
  length f = length splits ->
  compute_prebins (S (length splits)) wu d data (Some f) user nref flag splits = Some (Ok pb) ->
  exists f', pb_fixed pb = Some f' /\ length f' = length (pb_splits pb) /\
    forall s, In (s, true) (combine splits f) -> In (s, true) (combine (pb_splits pb) f').
Proof. exact C06_fixed_refine. Qed.
Print Assumptions C06_fixed_splits_kept.

Example C06_hyps_met :
  (exists pb, compute_prebins 4 1 IV ex_data (Some [false; false; true]) (Some [2; 4; 6]) 0 false [2; 4; 6]
     = Some (Ok pb) /\ pb_splits pb = [4; 6] /\ pb_fixed pb = Some [false; true]) /\
  compute_prebins 4 1 IV ex_data (Some [true; false; false]) (Some [2; 4; 6]) 0 false [2; 4; 6]
     = Some (Err ValueError).
Proof. split; [eexists; repeat split|]; vm_compute; reflexivity. Qed.

(** C16: each selected group of the solution becomes one row holding the sum of its prebins; nothing
    is lost and others / special / missing rows follow. *)
Theorem C16_merge_preserves_counts : forall sol n others specials missing,
  length sol = length n -> sol <> [] -> last sol false = true ->
  exists rows groups, bin_info_1 1 sol n others specials missing =
      Some (rows ++ match others with Some o => [o] | None => [] end ++ specials ++ [missing]) /\
    length rows = count_true sol /\ concat groups = n /\ rows = map zsum groups /\
    (forall g, In g groups -> g <> []) /\ zsum rows = zsum n.
Proof. exact C16_bin_info. Qed.
Print Assumptions C16_merge_preserves_counts.

Example C16_hyps_met : bin_info_1 1 [false; true; true; false; true] [1;2;3;4;5] (Some 9) [7; 8] 6
  = Some [3; 3; 9; 9; 7; 8; 6].
Proof. reflexivity. Qed.

(** C24: missing and special values. *)
Theorem C24_missing_value : forall V splits sp k ms (mv : list V) u mm,
  (mm = Empirical ->
     transform1_num splits sp k ms mm mv u XNaN = idx mv (S (length splits) + n_special sp)) /\
  (forall b v, mm = Const b v -> k = MValue ->
     transform1_num splits sp k ms mm mv u XNaN = Ok v).
Proof. exact @C24_missing. Qed.
Print Assumptions C24_missing_value.

Theorem C24_special_value : forall V splits sp k mm (mv : list V) u ms z i,
  sp_disjoint sp -> special_index sp i (XNum z) ->
  (ms = Empirical ->
     transform1_num splits sp k ms mm mv u (XNum z) = idx mv (S (length splits) + i)) /\
  (forall b v, ms = Const b v -> k = MValue ->
     transform1_num splits sp k ms mm mv u (XNum z) = Ok v).
Proof. exact @C24_special. Qed.
Print Assumptions C24_special_value.
Example C24_hyps_met : special_index ex_sp 1 (XNum (-7)) /\
  transform1_num [4] ex_sp MValue Empirical (Const true 0) [10;20;30;40;50] 0 (XNum (-7)) = Ok 40.
Proof. split; [|reflexivity]. eexists. split; [reflexivity|]. cbn. tauto. Qed.

(** C25: with 'empirical' special/missing handling the index is exactly the table row. *)
Theorem C25_indices_identify_rows_partial : forall splits sp x k,
  nondecreasing splits -> sp_disjoint sp -> ~ In XNaN (flat_codes sp) ->
  transform_indices splits sp Empirical Empirical x = Ok (Z.of_nat k) <-> row_of splits sp x k.
Proof. exact C25_empirical. Qed.
Print Assumptions C25_indices_identify_rows_partial.

(** C25 with the default arguments metric_special=0, metric_missing=0 (ints): a missing value and a
    special value get the index of the first bin. *)
Theorem C25_default_indices_refuted : exists splits sp x1 x2 k,
  transform_indices splits sp (Const true 0) (Const true 0) x1 = Ok k /\
  transform_indices splits sp (Const true 0) (Const true 0) x2 = Ok k /\
  row_of splits sp x1 0 /\ row_of splits sp x2 3 /\ ~ row_of splits sp x2 0.
Proof.
  exists [4], SpNone, (XNum 1), XNaN, 0. repeat split; try reflexivity; cbn; try discriminate.
  right. split; [tauto|]. split; cbn; [exact I|lia].
Qed.
Print Assumptions C25_default_indices_refuted.

(** C48: with one bound given, clean records respect it ... *)
Theorem C48_bounds_partial : forall det lb ub sp xs ys sw o,
  (lb = None \/ ub = None) ->
  split_numerical det lb ub sp xs ys sw = Ok o ->
  forall x, In x (x_clean o) ->
    (forall l, lb = Some l -> l <= num x) /\ (forall u, ub = Some u -> num x <= u).
Proof. exact C48_one_bound. Qed.
Print Assumptions C48_bounds_partial.
(** ... but with both bounds given the upper bound is ignored (unreachable else branch, 251-257). *)
Theorem C48_both_bounds_refuted : exists xs ys sw o,
  split_numerical None (Some 0) (Some 10) SpNone xs ys sw = Ok o /\ In (XNum 50) (x_clean o).
Proof.
  exists [XNum 5; XNum 50], [Y0; Y1], [1; 1]. eexists. split; [reflexivity|]. cbn. tauto.
Qed.
Print Assumptions C48_both_bounds_refuted.
Example C48_hyps_met : exists o, split_numerical None None (Some 10) SpNone
  [XNum 5; XNum 50] [Y0; Y1] [1; 1] = Ok o /\ x_clean o = [XNum 5].
Proof. eexists. split; reflexivity. Qed.

(** C47 (wiring): outlier detection never touches missing or special samples and removes exactly the
    flagged clean samples, keeping target and weight aligned. *)
Theorem C47_outliers_only_from_clean : forall det sp xs ys sw o,
  split_numerical (Some det) None None sp xs ys sw = Ok o ->
  let o0 := split_masks sp xs ys sw in
  x_missing o = x_missing o0 /\ y_missing o = y_missing o0 /\
  x_special o = x_special o0 /\ y_special o = y_special o0 /\
  x_clean o = select (mnot (det (map num (x_clean o0)) (y_clean o0))) (x_clean o0) /\
  y_clean o = select (mnot (det (map num (x_clean o0)) (y_clean o0))) (y_clean o0) /\
  sw_clean o = select (mnot (det (map num (x_clean o0)) (y_clean o0))) (sw_clean o0).
Proof. exact C47_detector. Qed.
Print Assumptions C47_outliers_only_from_clean.
