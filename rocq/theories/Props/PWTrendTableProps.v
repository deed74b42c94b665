(** C94, continued: the trend asked of the regression against the binning table. *)
From Coq Require Import List ZArith QArith Bool Lia Lqa Permutation Sorted.
From Verif Require Import Model.Arr Model.Core Model.AutoMono Model.Outlier Model.PWLife Model.PWOutlier Model.PWTrend
  Spec.CoreSpec Spec.AutoSpec Spec.OutlierSpec Spec.PWOutlierSpec Spec.PWTrendSpec Proofs.CoreP Proofs.PWTrendP
  Props.OutlierProps Props.PWOutlierProps Props.PWTrendProps.
Import ListNotations.
Open Scope Q_scope.

(** the Mean (Event rate) column of a table row *)
Definition row_mean (k : pwkind) (row : Z * Z) : Q := inject_Z (snd row) / inject_Z (row_records k row).

Lemma binary_sum b : (forall r : Z * Z, In r b -> snd r = 0%Z \/ snd r = 1%Z) ->
  Z.of_nat (length (filter (fun p : Z * Z => negb (snd p =? 0)%Z) b)) = zsum (map snd b) /\
  (Z.of_nat (length (filter (fun p : Z * Z => (snd p =? 0)%Z) b)) + Z.of_nat (length (filter (fun p : Z * Z => negb (snd p =? 0)%Z) b)))%Z =
  Z.of_nat (length b).
Proof.
  induction b as [|r b IH]; intros H; [split; reflexivity|]. destruct IH as [A B]; [intros; apply H; now right|].
  cbn [filter map zsum length]. destruct (H r (or_introl eq_refl)) as [->| ->]; cbn [Z.eqb negb length]; lia.
Qed.

(** When no record of the clean data is lost between the regression and the table (always without an outlier detector), the shapes
    "auto" goes by are those of the table's own Mean (Event rate) column. *)
Theorem C94_table_shape : forall k dt sp f d t,
  pw_outlier_fit k dt sp f d = Ok t -> nondecreasing (on_splits t) ->
  bins_records k t = Z.of_nat (length (on_clean t)) ->
  (forall row, In row (on_rows t) -> (0 < row_records k row)%Z) ->
  (k = PWBinary -> forall r, In r (on_clean t) -> snd r = 0%Z \/ snd r = 1%Z) ->
  are_bin_means (on_splits t) (on_clean t) (map (row_mean k) (on_rows t)).
Proof.
  intros k dt sp f d t H Hs Hall Hpos Hbin.
  apply (proj1 (proj2 (proj2 (C92_all_counted _ _ _ _ _ _ H)))) in Hall.
  destruct (fit_inv _ _ _ _ _ _ H) as (twice & R1 & R2 & N1 & N2 & Es & Er). rewrite Hall in R2. injection R2 as <-.
  rewrite <- Es in Er. rewrite Er in Hpos |- *. clear Er. set (s := on_splits t) in *. set (l := on_clean t) in *. unfold count_rows in *.
  split; [now rewrite !map_length, seq_length|]. intros i m E. rewrite map_map, nth_error_map in E.
  destruct (nth_error (seq 0 (S (length s))) i) as [j|] eqn:Ej; [|discriminate]. injection E as <-.
  assert (i < S (length s))%nat by (rewrite <- (seq_length (S (length s)) 0); apply nth_error_Some; congruence).
  assert (j = i). { rewrite (nth_error_nth' _ 0%nat) in Ej by now rewrite seq_length. rewrite seq_nth in Ej by auto. injection Ej as <-. reflexivity. } subst j.
  set (b := filter (fun r => Nat.eqb (digitize s (fst r)) i) l).
  assert (Hp : (0 < row_records k (count_row k b))%Z).
  { apply Hpos. apply in_map_iff. exists i. split; [reflexivity|]. apply in_seq. lia. }
  assert (K : snd (count_row k b) = zsum (map snd b) /\ row_records k (count_row k b) = Z.of_nat (length b)).
  { destruct k; cbn [count_row row_records fst snd]; [|auto]. apply binary_sum. intros r Hr. apply (Hbin eq_refl). now apply filter_In in Hr. }
  destruct K as [K1 K2]. rewrite K2 in Hp.
  exists b, (filter (fun r => negb (Nat.eqb (digitize s (fst r)) i)) l).
  split; [apply filter_split|]. split; [intros E; rewrite E in Hp; cbn in Hp; lia|].
  split; [|split].
  - intros r Hr. apply filter_In in Hr as [_ Hr]. apply Nat.eqb_eq in Hr. now apply in_bin_digitize.
  - intros r Hr Hb. apply filter_In in Hr as [_ Hr]. apply (in_bin_digitize s (fst r) i Hs) in Hb. rewrite Hb, Nat.eqb_refl in Hr. discriminate.
  - unfold row_mean. rewrite K1, K2. rewrite <- (map_length snd b). apply zmean_is. intros E. apply map_eq_nil in E. rewrite E in Hp. cbn in Hp. lia.
Qed.
Print Assumptions C94_table_shape.

(** With an outlier detector the two can be opposite: the regression is asked to decrease although the table's means increase, since the
    table's bins have lost a record the trend was computed with. *)
Theorem C94_table_shape_refuted : exists dt sp f d t,
  pw_outlier_fit PWContinuous (Some dt) sp f d = Ok t /\ nondecreasing (on_splits t) /\
  (forall row, In row (on_rows t) -> (0 < row_records PWContinuous row)%Z) /\
  strictly_rising (map (row_mean PWContinuous) (on_rows t)) /\
  regression_request MAuto (on_splits t) (on_clean t) = MDescending.
Proof.
  exists (OneArray (DRange default_range)), SpNone, (fun _ => [3]%Z),
    (mkPD [(XNum 1, Some 1); (XNum 2, Some 2); (XNum 3, Some 3); (XNum 4, Some 4); (XNum 5, Some 5); (XNum 10, Some (-100)); (XNum 100, Some 0)]%Z false).
  eexists. split; [vm_compute; reflexivity|]. split; [repeat constructor|]. split.
  { intros row [<-|[<-|[]]]; vm_compute; reflexivity. }
  split; [|vm_compute; reflexivity].
  intros [|[|k]] a b _ Hk Ha Hb; cbn in Ha, Hb; try discriminate; try (destruct k; discriminate);
    injection Ha as <-; injection Hb as <-; vm_compute; reflexivity.
Qed.
Print Assumptions C94_table_shape_refuted.

Example C94_table_hyps_met : exists t,
  pw_outlier_fit PWBinary None SpNone (fun _ => [3]%Z) (mkPD [(XNum 1, Some 0); (XNum 2, Some 1); (XNum 3, Some 1)]%Z false) = Ok t /\
  nondecreasing (on_splits t) /\ bins_records PWBinary t = Z.of_nat (length (on_clean t)) /\
  (forall row, In row (on_rows t) -> (0 < row_records PWBinary row)%Z) /\
  (forall r, In r (on_clean t) -> snd r = 0%Z \/ snd r = 1%Z) /\
  regression_request MAuto (on_splits t) (on_clean t) = MAscending.
Proof.
  eexists. split; [vm_compute; reflexivity|]. split; [repeat constructor|]. split; [vm_compute; reflexivity|]. split.
  { intros row [<-|[<-|[]]]; vm_compute; reflexivity. }
  split; [|vm_compute; reflexivity]. intros r [<-|[<-|[<-|[]]]]; vm_compute; auto.
Qed.
