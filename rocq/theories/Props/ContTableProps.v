(** Property theorems for the continuous-target binning table (C69): build, Totals row, Information Value, WoE and
    quality score (binning_statistics.py, ContinuousBinningTable). *)
From Coq Require Import List ZArith Bool Arith Lia Sorting Reals Lra.
From Verif Require Import Model.Arr Model.Core Model.CP Model.Cont Model.Metrics Model.ContTable
  Spec.CoreSpec Spec.CPSpec Spec.CPFitSpec Spec.ContSpec Spec.MetricsSpec Spec.ContTableSpec
  Proofs.ArrP Proofs.CoreP Proofs.FitP Proofs.CoreFinal Proofs.ContP Proofs.ContC Proofs.ContFinal Proofs.ContTrend
  Proofs.MetricsP Proofs.MetricsQ Proofs.ContTableP Proofs.ContTableQ.
Import ListNotations.
Open Scope R_scope.

(** C69: every column of every row is the documented function of the training records of the row. *)
Theorem C69_columns : forall old solver sp fixed user splits0 rs f p,
  nondecreasing splits0 -> c_solver_ok solver -> fit_cont old solver sp fixed user splits0 rs = Some (Ok f) ->
  targets_ok rs -> ~ In XNaN (flat_codes sp) -> sp_disjoint sp -> classifies p (cf_splits f) sp ->
  length (cf_rows f) = n_rows (cf_splits f) sp /\
  forall k row, nth_error (cf_rows f) k = Some row ->
    let l := filter (p k) rs in
    IZR (r_n row) = weight l /\ ct_share (cf_rows f) row = weight l / weight rs /\
    option_map IZR (r_sum row) = Some (wtotal l) /\ ct_row_mean row = Some (wmean l) /\
    r_zero row = Z.of_nat (length (filter (fun r => (wtarget r =? 0)%Z) l)) /\
    ct_woe (cf_rows f) row = Some (wmean l - wmean rs) /\
    ct_iv (cf_rows f) row = Some (Rabs (wmean l - wmean rs) * (weight l / weight rs)).
Proof.
  intros * H1 H2 H3 H4 H5 H6 H7. split.
  - exact (proj1 (t_rows _ _ _ _ _ _ _ _ _ H1 H2 H3 H4 H5 H7)).
  - intros k row E. exact (t_columns _ _ _ _ _ _ _ _ _ H1 H2 H3 H4 H5 H6 H7 k row E).
Qed.
Print Assumptions C69_columns.

(** The Totals row describes the whole training set; its IV and WoE are the documented sums over the rows. *)
Theorem C69_totals : forall old solver sp fixed user splits0 rs f p,
  nondecreasing splits0 -> c_solver_ok solver -> fit_cont old solver sp fixed user splits0 rs = Some (Ok f) ->
  targets_ok rs -> ~ In XNaN (flat_codes sp) -> sp_disjoint sp -> classifies p (cf_splits f) sp ->
  let m := n_rows (cf_splits f) sp in
  ct_records (cf_rows f) = weight rs /\ ct_sum (cf_rows f) = wtotal rs /\ ct_mean (cf_rows f) = wmean rs /\
  ct_total_zeros (cf_rows f) = Z.of_nat (length (filter (fun r => (wtarget r =? 0)%Z) rs)) /\
  ct_total_iv (cf_rows f) = Some (doc_iv p m rs) /\ ct_total_woe (cf_rows f) = Some (doc_woe p m rs) /\
  ((forall d, sp <> SpDict d) -> old = fresh ->
     (exists z, ct_total_min (cf_rows f) = Fin z /\ is_min z (map wtarget rs)) /\
     (exists z, ct_total_max (cf_rows f) = Fin z /\ is_max z (map wtarget rs))).
Proof.
  intros * H1 H2 H3 H4 H5 H6 H7 m. destruct (t_totals _ _ _ _ _ _ _ _ _ H1 H2 H3 H4 H5 H6 H7) as (A & B & C).
  split; [exact (t_records _ _ _ _ _ _ _ _ _ H1 H2 H3 H4 H5 H6 H7)|].
  split; [exact (t_total _ _ _ _ _ _ _ _ _ H1 H2 H3 H4 H5 H6 H7)|].
  split; [exact (t_mean _ _ _ _ _ _ _ _ _ H1 H2 H3 H4 H5 H6 H7)|].
  split; [exact C|]. split; [exact A|]. split; [exact B|].
  exact (t_range _ _ _ _ _ _ _ _ _ H1 H2 H3 H4 H5 H6 H7).
Qed.
Print Assumptions C69_totals.

(** IV is between 0 and the mean absolute deviation of the target, whatever the binning; it is 0 exactly when no
    row with records has a mean different from the overall mean. *)
Theorem C69_iv_bounds : forall old solver sp fixed user splits0 rs f p,
  nondecreasing splits0 -> c_solver_ok solver -> fit_cont old solver sp fixed user splits0 rs = Some (Ok f) ->
  targets_ok rs -> ~ In XNaN (flat_codes sp) -> sp_disjoint sp -> classifies p (cf_splits f) sp ->
  exists iv, ct_total_iv (cf_rows f) = Some iv /\ 0 <= iv <= mean_abs_dev rs /\
    (iv = 0 <-> forall k, (k < n_rows (cf_splits f) sp)%nat -> 0 < weight (filter (p k) rs) -> wmean (filter (p k) rs) = wmean rs).
Proof.
  intros * H1 H2 H3 H4 H5 H6 H7. destruct (t_totals _ _ _ _ _ _ _ _ _ H1 H2 H3 H4 H5 H6 H7) as (A & _ & _).
  eexists. split; [exact A|]. exact (t_iv_bounds _ _ _ _ _ _ _ _ _ H1 H2 H3 H4 H5 H6 H7).
Qed.
Print Assumptions C69_iv_bounds.

(** The table of a fit has counts >= 0, sums that vanish with the count, and a positive total: the hypotheses of the
    theorems below. *)
Theorem C69_fitted_rows_ok : forall old solver sp fixed user splits0 rs f,
  nondecreasing splits0 -> c_solver_ok solver -> fit_cont old solver sp fixed user splits0 rs = Some (Ok f) ->
  targets_ok rs -> ~ In XNaN (flat_codes sp) -> sp_disjoint sp ->
  rows_ok (cf_rows f) /\ 0 < ct_records (cf_rows f).
Proof.
  intros * H1 H2 H3 H4 H5 H6.
  assert (Hp : exists p, classifies p (cf_splits f) sp).
  { pose proof (ct_nondecr _ _ _ _ _ _ _ _ H1 H2 H3) as Hn.
    exists (fun k r => match k_x r with
      | XNaN => (k =? S (length (cf_splits f)) + n_special sp)%nat
      | XNum z => if isin (flat_codes sp) (XNum z) then
          (S (length (cf_splits f)) <=? k)%nat &&
          match sp with SpNone => false | SpList _ => (k - S (length (cf_splits f)) =? 0)%nat
          | SpDict d => match nth_error d (k - S (length (cf_splits f))) with Some kv => isin (snd kv) (XNum z) | None => false end end
        else (digitize (cf_splits f) z =? k)%nat end).
    intros k r. destruct (k_x r) as [|z]; cbn [row_of]; [apply Nat.eqb_eq|].
    destruct (isin (flat_codes sp) (XNum z)) eqn:E.
    - rewrite andb_true_iff, Nat.leb_le. split.
      + intros [L H]. left. exists (k - S (length (cf_splits f)))%nat. split; [|lia]. destruct sp as [|l|d]; cbn [special_index]; [discriminate| |].
        * apply Nat.eqb_eq in H. split; [exact H|]. apply isin_In in E. exact E.
        * destruct (nth_error d _) as [kv|]; [|discriminate]. apply isin_In in H. eauto.
      + intros [(i & Hi & ->)|[Hc _]]; [|destruct Hc; apply isin_In; exact E]. split; [lia|].
        replace (S (length (cf_splits f)) + i - S (length (cf_splits f)))%nat with i by lia. destruct sp as [|l|d]; cbn [special_index] in Hi.
        * destruct Hi.
        * apply Nat.eqb_eq, Hi.
        * destruct Hi as (kv & A & B). rewrite A. apply isin_In. exact B.
    - rewrite Nat.eqb_eq. split.
      + intros <-. right. split; [intros Hx; apply isin_In in Hx; congruence|]. now apply digitize_in_bin.
      + intros [(i & Hi & ->)|[_ Hb]]; [apply special_index_in in Hi; congruence|]. eapply in_bin_unique; [exact Hn|apply digitize_in_bin; exact Hn|exact Hb]. }
  destruct Hp as [p H7]. split.
  - exact (t_ok _ _ _ _ _ _ _ _ _ H1 H2 H3 H4 H5 H7).
  - exact (t_pos _ _ _ _ _ _ _ _ _ H1 H2 H3 H4 H5 H6 H7).
Qed.
Print Assumptions C69_fitted_rows_ok.

(** Merging rows never increases the IV. *)
Theorem C69_merging_decreases_iv : forall groups coarse,
  rows_ok (concat groups) -> merged_rows groups coarse -> 0 < ct_records (concat groups) ->
  exists a b, ct_total_iv coarse = Some a /\ ct_total_iv (concat groups) = Some b /\ 0 <= a <= b.
Proof. exact merge_iv. Qed.
Print Assumptions C69_merging_decreases_iv.

(** Adding a constant to the target does not change the IV; it does not change the WoE when no row is empty. *)
Theorem C69_shift : forall c a b, shifted c a b -> rows_ok a -> 0 < ct_records a ->
  ct_total_iv b = ct_total_iv a /\ ((forall r, In r a -> (0 < r_n r)%Z) -> ct_total_woe b = ct_total_woe a).
Proof. exact shift_iv. Qed.
Print Assumptions C69_shift.

(** Shares, HHI and quality score are in range ([test]: the p-value of scipy's Welch test). *)
Theorem C69_hhi_quality_range : forall rows, rows_ok rows -> 0 < ct_records rows ->
  rsum (map (ct_share rows) rows) = 1 /\ 1 / INR (length rows) <= ct_hhi rows <= 1 /\ 0 <= ct_hhi_norm rows <= 1 /\
  forall test n_specials n_others q, (forall a b, 0 <= test a b <= 1) -> ct_quality test n_specials n_others rows = Some q -> 0 <= q <= 1.
Proof.
  intros rows H1 H2. destruct (shares_ok rows H1 H2) as [A B]. destruct (hhi_bounds _ A B) as [C D]. rewrite map_length in C.
  split; [exact B|]. split; [exact C|]. split; [exact D|]. intros. eapply quality_ok; eassumption.
Qed.
Print Assumptions C69_hhi_quality_range.

(** The significance tests compare the consecutive bins, and no special or missing row. *)
Lemma consecutive_nth {B} (g : trow -> trow -> B) : forall l i, nth_error (consecutive g l) i =
  match nth_error l i, nth_error l (S i) with Some a, Some b => Some (g a b) | _, _ => None end.
Proof.
  induction l as [|a l IH]; intros i; [destruct i; reflexivity|]. destruct l as [|b r].
  - destruct i as [|i]; [reflexivity|]. cbn [consecutive nth_error]. destruct i; reflexivity.
  - change (consecutive g (a :: b :: r)) with (g a b :: consecutive g (b :: r)). destruct i as [|i]; [reflexivity|]. cbn [nth_error]. apply IH.
Qed.
Lemma nth_error_firstn' {A} : forall n (l : list A) i, nth_error (firstn n l) i = if (i <? n)%nat then nth_error l i else None.
Proof.
  induction n as [|n IH]; intros l i; [destruct i; reflexivity|]. destruct l as [|a l]; [rewrite firstn_nil; destruct (i <? S n)%nat; destruct i; reflexivity|].
  destruct i as [|i]; [reflexivity|]. cbn [firstn nth_error]. rewrite IH. reflexivity.
Qed.
Theorem C69_tests : forall old solver sp fixed user splits0 rs f p test,
  nondecreasing splits0 -> c_solver_ok solver -> fit_cont old solver sp fixed user splits0 rs = Some (Ok f) ->
  targets_ok rs -> ~ In XNaN (flat_codes sp) -> classifies p (cf_splits f) sp ->
  let ps := ct_pvalues test (n_special sp) 0 (cf_rows f) in
  length ps = length (cf_splits f) /\
  forall i, (i < length (cf_splits f))%nat -> exists a b,
    nth_error (cf_rows f) i = Some a /\ nth_error (cf_rows f) (S i) = Some b /\ nth_error ps i = Some (test a b).
Proof.
  intros * H1 H2 H3 H4 H5 H7 ps. pose proof (proj1 (t_rows _ _ _ _ _ _ _ _ _ H1 H2 H3 H4 H5 H7)) as L. unfold n_rows in L.
  assert (M : ct_metric (n_special sp) 0 (cf_rows f) = S (length (cf_splits f))) by (unfold ct_metric; lia).
  assert (G : forall i, nth_error ps i = if (i <? length (cf_splits f))%nat then
     match nth_error (cf_rows f) i, nth_error (cf_rows f) (S i) with Some a, Some b => Some (test a b) | _, _ => None end else None).
  { intros i. unfold ps, ct_pvalues. rewrite M, consecutive_nth, !nth_error_firstn'.
    destruct (Nat.ltb_spec i (length (cf_splits f))) as [Q|Q].
    - destruct (Nat.ltb_spec i (S (length (cf_splits f)))); [|lia]. destruct (Nat.ltb_spec (S i) (S (length (cf_splits f)))); [reflexivity|lia].
    - destruct (Nat.ltb_spec (S i) (S (length (cf_splits f)))); [lia|]. destruct (i <? S (length (cf_splits f)))%nat; [destruct (nth_error _ i)|]; reflexivity. }
  assert (N : forall i, (i < length (cf_splits f))%nat -> exists a b, nth_error (cf_rows f) i = Some a /\ nth_error (cf_rows f) (S i) = Some b).
  { intros i Hi. destruct (nth_error (cf_rows f) i) as [a|] eqn:Ea; [|apply nth_error_None in Ea; lia].
    destruct (nth_error (cf_rows f) (S i)) as [b|] eqn:Eb; [|apply nth_error_None in Eb; lia]. eauto. }
  split.
  - apply Nat.le_antisymm.
    + apply nth_error_None. rewrite G, Nat.ltb_irrefl. reflexivity.
    + destruct (length (cf_splits f)) as [|n]; [lia|]. destruct (N n ltac:(lia)) as (a & b & Ea & Eb).
      apply nth_error_Some. rewrite G, Ea, Eb. destruct (Nat.ltb_spec n (S n)); [discriminate|lia].
  - intros i Hi. destruct (N i Hi) as (a & b & Ea & Eb). exists a, b. split; [exact Ea|]. split; [exact Eb|]. rewrite G, Ea, Eb.
    apply Nat.ltb_lt in Hi. rewrite Hi. reflexivity.
Qed.
Print Assumptions C69_tests.

Definition kt (x y w : Z) : krec := {| k_x := XNum x; k_y := Some y; k_w := w |}.
Definition each_true (st : list cstat) : list bool := repeat true (length st).
Lemma each_true_ok : c_solver_ok each_true.
Proof.
  intros st H. unfold each_true. rewrite repeat_length. split; [reflexivity|].
  destruct (length st) as [|n]; [lia|]. clear H. induction n; [reflexivity|]. exact IHn.
Qed.
Definition ct_rs : list krec := [kt 1 10 1; kt 2 0 2; kt 5 7 1; kt (-9) 3 1; {| k_x := XNaN; k_y := Some 4%Z; k_w := 1 |}].
Definition ct_p (k : nat) (r : krec) : bool :=
  match k_x r with
  | XNaN => (k =? 3)%nat
  | XNum z => if (z =? -9)%Z then (k =? 2)%nat else if (z <? 3)%Z then (k =? 0)%nat else (k =? 1)%nat
  end.
Example C69_hyps_met : exists f, fit_cont fresh each_true (SpList [XNum (-9)]) None None [3]%Z ct_rs = Some (Ok f) /\
  targets_ok ct_rs /\ c_solver_ok each_true /\ ~ In XNaN (flat_codes (SpList [XNum (-9)])) /\
  classifies ct_p (cf_splits f) (SpList [XNum (-9)]) /\ map r_n (cf_rows f) = [3; 1; 1; 1]%Z.
Proof.
  eexists. split; [vm_compute; reflexivity|]. split.
  - split; [|unfold weight; cbn; lra]. intros r Hr. cbn in Hr. repeat (destruct Hr as [<-|Hr]; [cbn; split; [lia|discriminate]|]). destruct Hr.
  - split; [exact each_true_ok|]. split; [intros [E|[]]; discriminate|]. split; [|reflexivity].
    intros k r. cbn [cf_splits]. unfold ct_p. destruct (k_x r) as [|z]; cbn [row_of n_special flat_codes]; [apply Nat.eqb_eq|].
    destruct (Z.eqb_spec z (-9)) as [-> |N].
    + rewrite Nat.eqb_eq. split.
      * intros ->. left. exists 0%nat. split; [split; [reflexivity|now left]|reflexivity].
      * intros [(i & [-> _] & ->)|[Hc _]]; [reflexivity|destruct Hc; now left].
    + destruct (Z.ltb_spec z 3) as [L|L]; rewrite Nat.eqb_eq; (split;
        [intros ->; right; split; [intros [E|[]]; injection E as E; lia|unfold in_bin_i; cbn; split; first [exact I|lia]]
        |intros [(i & [_ [E|[]]] & _)|[_ Hb]]; [injection E as E; lia|]]).
      * unfold in_bin_i in Hb. destruct k as [|[|[|k]]]; cbn in Hb; [reflexivity|destruct Hb; lia|destruct Hb|destruct k; destruct Hb].
      * unfold in_bin_i in Hb. destruct k as [|[|[|k]]]; cbn in Hb; [destruct Hb; lia|reflexivity|destruct Hb|destruct k; destruct Hb].
Qed.
Example C69_merge_hyps_met : exists f, fit_cont fresh each_true SpNone None None [3; 6]%Z [kt 1 10 1; kt 4 2 1; kt 7 5 2] = Some (Ok f) /\
  rows_ok (concat [firstn 2 (cf_rows f); skipn 2 (cf_rows f)]) /\ 0 < ct_records (cf_rows f).
Proof.
  eexists. split; [reflexivity|]. split; [|unfold ct_records; cbn; lra].
  intros r Hr. cbn in Hr. repeat (destruct Hr as [<-|Hr]; [split; [cbn; lia|eexists; split; [reflexivity|cbn; lia]]|]). destruct Hr.
Qed.

(** Refuted in part: WoE and quality score depend on rows without records. Two fits of the same data, the second
    with the target lowered by 1: same splits, same bins, same IV, but the WoE falls from 4 to 2, because the empty
    Special and Missing rows count as bins of mean 0. *)
Theorem C69_empty_rows_refuted : exists f f',
  fit_cont fresh each_true SpNone None None [3]%Z [kt 1 0 1; kt 5 2 1] = Some (Ok f) /\
  fit_cont fresh each_true SpNone None None [3]%Z [kt 1 (-1) 1; kt 5 1 1] = Some (Ok f') /\
  shifted (-1) (cf_rows f) (cf_rows f') /\ ct_total_iv (cf_rows f) = Some 1 /\ ct_total_iv (cf_rows f') = Some 1 /\
  ct_total_woe (cf_rows f) = Some 4 /\ ct_total_woe (cf_rows f') = Some 2.
Proof.
  eexists. eexists. split; [reflexivity|]. split; [reflexivity|]. split.
  - repeat (constructor; [split; [reflexivity|eexists; split; reflexivity]|]). constructor.
  - unfold ct_total_iv, ct_total_woe, ct_iv, ct_woe, ct_share, ct_mean, ct_sum, ct_records. cbn. unfold ct_row_mean. cbn.
    assert (A1 : Rabs 1 = 1) by apply Rabs_R1.
    assert (A2 : Rabs (-1) = 1) by (rewrite Rabs_left; lra).
    replace (0 / 1 - 2 / 2) with (-1) by field. replace (2 / 1 - 2 / 2) with 1 by field. replace (0 - 2 / 2) with (-1) by field.
    replace (-1 / 1 - 0 / 2) with (-1) by field. replace (1 / 1 - 0 / 2) with 1 by field. replace (0 - 0 / 2) with 0 by field.
    rewrite A1, A2, Rabs_R0. repeat split; f_equal; field.
Qed.
Print Assumptions C69_empty_rows_refuted.

(** Refuted in part: one record without target makes the IV, the WoE and the quality score NaN, and the Totals mean
    counts the record although its target is left out of the sum: 30 / 3 instead of 30 / 2. *)
Lemma np_sum_nan l : In None l -> np_sum l = None.
Proof.
  induction l as [|[a|] l IH]; intros H; [destruct H| |reflexivity]. destruct H as [H|H]; [discriminate|]. cbn. now rewrite IH.
Qed.
Theorem C69_missing_target_refuted :
  (forall old solver sp fixed user splits0 rs f r, nondecreasing splits0 -> c_solver_ok solver ->
     fit_cont old solver sp fixed user splits0 rs = Some (Ok f) -> In r rs -> k_y r = None -> (forall r', In r' rs -> (0 < k_w r')%Z) ->
     ct_total_iv (cf_rows f) = None /\ ct_total_woe (cf_rows f) = None /\
     forall test ns no, ct_quality test ns no (cf_rows f) = None) /\
  exists f, fit_cont fresh each_true SpNone None None [2]%Z [kt 1 10 1; kt 2 20 1; {| k_x := XNum 5; k_y := None; k_w := 1 |}] = Some (Ok f) /\
    ct_mean (cf_rows f) = 10.
Proof.
  split.
  - intros * Hs Hok Hf Hr Hy Hw. destruct (c_rows_shape _ _ _ _ _ _ _ _ Hs Hok Hf) as (srows & _ & Hrows).
    set (mr := missing_row old (filter k_missing rs)).
    assert (Hin : In mr (cf_rows f)) by (rewrite Hrows; apply in_or_app; right; apply in_or_app; right; now left).
    assert (Hm : In r (filter k_missing rs)) by (apply filter_In; split; [exact Hr|unfold k_missing; rewrite Hy; apply orb_true_r]).
    assert (E1 : r_sum mr = None).
    { unfold mr. cbn [missing_row r_sum]. revert Hm. generalize (filter k_missing rs). intros l Hm. induction l as [|a l IH]; [destruct Hm|].
      cbn [map nsum]. destruct Hm as [-> |Hm]; [unfold k_prod; rewrite Hy; reflexivity|]. rewrite (IH Hm). destruct (k_prod a); reflexivity. }
    assert (E2 : (0 < r_n mr)%Z).
    { unfold mr. cbn [missing_row r_n].
      assert (G : forall l, (forall r', In r' l -> (0 < k_w r')%Z) -> In r l -> (0 < zsum (map k_w l))%Z).
      { intros l. induction l as [|a l IH]; intros Hl Hi; [destruct Hi|]. cbn [map zsum]. pose proof (Hl a (or_introl eq_refl)).
        assert (0 <= zsum (map k_w l))%Z.
        { apply zsum_nonneg. intros c Hc. apply in_map_iff in Hc as (b & <- & Hb). apply Z.lt_le_incl, Hl. now right. }
        lia. }
      apply G; [|exact Hm]. intros r' Hr'. apply Hw. now apply filter_In in Hr'. }
    assert (EM : ct_row_mean mr = None) by (unfold ct_row_mean; apply Z.ltb_lt in E2; rewrite E2, E1; reflexivity).
    assert (EI : ct_total_iv (cf_rows f) = None).
    { apply np_sum_nan. apply in_map_iff. exists mr. split; [|exact Hin]. unfold ct_iv, ct_woe. now rewrite EM. }
    assert (EW : ct_total_woe (cf_rows f) = None).
    { apply np_sum_nan. apply in_map_iff. exists mr. split; [|exact Hin]. unfold ct_woe. now rewrite EM. }
    split; [exact EI|]. split; [exact EW|]. intros. unfold ct_quality. now rewrite EW.
  - eexists. split; [reflexivity|]. unfold ct_mean, ct_sum, ct_records. cbn. lra.
Qed.
Print Assumptions C69_missing_target_refuted.

(** Refuted in part: with a dict of special codes, a code without records enters the Totals minimum and maximum as
    a target 0: all targets are at least 5, the Totals row says Min 0. *)
Theorem C69_totals_min_refuted : exists f,
  fit_cont fresh each_true (SpDict [(1, [XNum (-9)]); (2, [XNum (-8)])]%Z) None None [3]%Z [kt 1 10 1; kt 5 20 1; kt (-9) 5 1] = Some (Ok f) /\
  ct_total_min (cf_rows f) = Fin 0 /\ is_min 5 (map wtarget [kt 1 10 1; kt 5 20 1; kt (-9) 5 1]).
Proof.
  eexists. split; [reflexivity|]. split; [reflexivity|]. split; [cbn; auto|]. intros a Ha. cbn in Ha. intuition lia.
Qed.
Print Assumptions C69_totals_min_refuted.
