(** C43: stability reports of ScorecardMonitoring. *)
From Coq Require Import List ZArith QArith Reals Bool Lia Lra Sorting.
From Verif Require Import Model.Arr Model.Core Model.Metrics Model.Monitor Spec.CoreSpec Spec.MetricsSpec Spec.MonitorSpec
  Proofs.ArrP Proofs.CoreP Proofs.FitP Proofs.MetricsP Proofs.MonitorP.
Import ListNotations.
Open Scope Z_scope.

(** ** PSI of a table of counts (actual, expected) *)
(** With no empty bin the PSI is finite, nonnegative (row by row and in total), the same when actual and expected are swapped, and 0
    exactly when both columns have the same proportions. *)
Theorem C43_psi_divergence : forall rows, rows <> [] -> all_positive rows ->
  (forall v, In v (psi_column rows) -> exists r, v = XFin r /\ (0 <= r)%R) /\
  exists v, psi_total rows = XFin v /\ (0 <= v)%R /\ psi_total (swap_columns rows) = XFin v /\ (v = 0%R <-> same_distribution rows).
Proof.
  intros rows Hn H. destruct (sums_pos rows Hn H) as [Pa Pe]. split.
  - intros v Hv. unfold psi_column in Hv. cbv zeta in Hv. apply in_map_iff in Hv. destruct Hv as (r & <- & Hr). destruct (H r Hr).
    rewrite psi_row_fin by lia. eexists. split; [reflexivity|]. apply fin_row_nonneg; assumption.
  - eexists. split; [apply psi_total_fin; assumption|].
    assert (Hnn : forall x, In x (map (fin_row (zsum (map fst rows)) (zsum (map snd rows))) rows) -> (0 <= x)%R).
    { intros x Hx. apply in_map_iff in Hx. destruct Hx as (r & <- & Hr). destruct (H r Hr). apply fin_row_nonneg; assumption. }
    split; [now apply rsum_nonneg|]. split.
    + assert (Hs : all_positive (swap_columns rows)).
      { intros r Hr. apply in_map_iff in Hr. destruct Hr as (q & <- & Hq). destruct (H q Hq). split; assumption. }
      assert (Hsn : swap_columns rows <> []) by (destruct rows; [congruence|discriminate]).
      rewrite psi_total_fin by assumption. unfold swap_columns. rewrite !map_map. cbn [fst snd]. f_equal. f_equal.
      apply map_ext_in. intros r Hr. destruct (H r Hr). unfold fin_row. cbn [fst snd]. apply jeffrey1_sym; apply share_pos; assumption.
    + rewrite (rsum_zero_iff _ Hnn). unfold same_distribution. split.
      * intros K r Hr. specialize (K _ (in_map _ rows r Hr)). destruct (H r Hr).
        unfold fin_row in K. apply (proj1 (d_zero _ jeffrey_div _ _ (share_pos _ _ H0 Pa) (share_pos _ _ H1 Pe))) in K. now apply share_eq in K.
      * intros K x Hx. apply in_map_iff in Hx. destruct Hx as (r & <- & Hr). destruct (H r Hr).
        unfold fin_row. apply (proj2 (d_zero _ jeffrey_div _ _ (share_pos _ _ H0 Pa) (share_pos _ _ H1 Pe))). apply share_eq; auto.
Qed.
(** With empty bins the total is nan as soon as one bin is empty in both data sets, and otherwise +inf as soon as one is empty in
    one of them: never a finite number. *)
Theorem C43_psi_with_empty_bins : forall rows, zsum (map fst rows) <> 0 -> zsum (map snd rows) <> 0 ->
  (psi_total rows = XNan <-> exists r, In r rows /\ fst r = 0 /\ snd r = 0) /\
  (psi_total rows = XInf <-> (exists r, In r rows /\ ((fst r = 0 /\ snd r <> 0) \/ (fst r <> 0 /\ snd r = 0))) /\
                             forall r, In r rows -> ~ (fst r = 0 /\ snd r = 0)).
Proof.
  intros rows Ha He. unfold psi_total. rewrite xsum_nan, xsum_inf. unfold psi_column. cbv zeta.
  assert (N : In XNan (map (psi_row (zsum (map fst rows)) (zsum (map snd rows))) rows) <-> exists r, In r rows /\ fst r = 0 /\ snd r = 0).
  { rewrite in_map_iff. split; intros (r & A & B).
    - exists r. split; [exact B|]. now apply psi_row_nan in A.
    - exists r. split; [now apply psi_row_nan|exact A]. }
  split; [exact N|]. rewrite N. rewrite in_map_iff. split.
  - intros [(r & A & B) C]. split; [exists r; split; [exact B|now apply psi_row_inf in A]|]. intros r' Hr' K. apply C. now exists r'.
  - intros [(r & A & B) C]. split; [exists r; split; [now apply psi_row_inf|exact A]|]. intros (r' & Hr' & K). now apply (C r').
Qed.
(** So "0 iff both distributions coincide" is false: for identical data an empty bin makes the total nan. *)
Theorem C43_identical_data_nan_refuted : forall col, In 0 col -> zsum col <> 0 ->
  psi_total (map (fun c => (c, c)) col) = XNan.
Proof.
  intros col H0 Hs. assert (E : forall (f : Z * Z -> Z), (forall c, f (c, c) = c) -> map f (map (fun c => (c, c)) col) = col).
  { intros f Hf. rewrite map_map. rewrite <- (map_id col) at 2. apply map_ext. exact Hf. }
  apply C43_psi_with_empty_bins; rewrite ?E by reflexivity; try assumption.
  exists (0, 0). split; [|now split]. change (0, 0) with ((fun c => (c, c)) 0). now apply in_map.
Qed.
(** The summary style skips nan rows: it is never nan, is nonnegative, and is 0 for identical data. *)
Theorem C43_summary_skips_common_empty_bins : forall rows, (forall r, In r rows -> 0 <= fst r /\ 0 <= snd r) ->
  zsum (map fst rows) <> 0 -> zsum (map snd rows) <> 0 ->
  (psi_summary rows = XInf \/ exists v, psi_summary rows = XFin v /\ (0 <= v)%R) /\
  ((forall r, In r rows -> fst r = snd r) -> psi_summary rows = XFin 0).
Proof.
  intros rows Hnn Ha He.
  assert (Pa : 0 < zsum (map fst rows)).
  { assert (0 <= zsum (map fst rows)); [|lia]. apply MetricsP.zsum_nonneg. intros c Hc. apply in_map_iff in Hc. destruct Hc as (r & <- & Hr). now apply Hnn. }
  assert (Pe : 0 < zsum (map snd rows)).
  { assert (0 <= zsum (map snd rows)); [|lia]. apply MetricsP.zsum_nonneg. intros c Hc. apply in_map_iff in Hc. destruct Hc as (r & <- & Hr). now apply Hnn. }
  unfold psi_summary, psi_column. cbv zeta. rewrite xsum_skipna_filter.
  set (ta := zsum (map fst rows)) in *. set (te := zsum (map snd rows)) in *.
  assert (Row : forall r, In r rows -> psi_row ta te r = XNan \/ psi_row ta te r = XInf \/
     (0 < fst r /\ 0 < snd r /\ psi_row ta te r = XFin (fin_row ta te r))).
  { intros r Hr. destruct (Hnn r Hr). destruct (Z.eq_dec (fst r) 0), (Z.eq_dec (snd r) 0).
    - left. apply psi_row_nan; auto.
    - right; left. apply psi_row_inf; auto.
    - right; left. apply psi_row_inf; auto.
    - right; right. repeat split; try lia. apply psi_row_fin; lia. }
  split.
  - clearbody ta te. clear Ha He Hnn. induction rows as [|r rows IH]; [right; exists 0%R; split; [reflexivity|lra]|].
    specialize (IH ltac:(intros; apply Row; now right)).
    destruct (Row r (or_introl eq_refl)) as [E|[E|(P1 & P2 & E)]]; cbn [map filter]; rewrite E.
    + exact IH.
    + left. cbn [xsum xadd]. destruct IH as [K|(v & K & _)]; rewrite K; reflexivity.
    + pose proof (fin_row_nonneg ta te r Pa Pe P1 P2). cbn [xsum]. destruct IH as [K|(v & K & Hv)]; rewrite K; [now left|].
      right. eexists. split; [reflexivity|]. lra.
  - intros Heq. assert (Et : ta = te) by (unfold ta, te; f_equal; apply map_ext_in; exact Heq).
    clearbody ta te. clear Ha He Hnn. induction rows as [|r rows IH]; [reflexivity|].
    specialize (IH ltac:(intros; apply Row; now right) ltac:(intros; apply Heq; now right)).
    destruct (Row r (or_introl eq_refl)) as [E|[E|(P1 & P2 & E)]]; cbn [map filter]; rewrite E.
    + exact IH.
    + exfalso. apply psi_row_inf in E; [|lia|lia]. specialize (Heq r (or_introl eq_refl)). lia.
    + cbn [xsum]. rewrite IH. cbn [xadd]. f_equal.
      assert (Z0 : fin_row ta te r = 0%R).
      { unfold fin_row. apply (proj2 (d_zero _ jeffrey_div _ _ (share_pos _ _ P1 Pa) (share_pos _ _ P2 Pe))). rewrite Et, (Heq r (or_introl eq_refl)). reflexivity. }
      rewrite Z0. lra.
Qed.
Print Assumptions C43_psi_divergence.
Print Assumptions C43_psi_with_empty_bins.
Print Assumptions C43_identical_data_nan_refuted.
Print Assumptions C43_summary_skips_common_empty_bins.
Example C43_psi_hyps_met : all_positive [(1, 2); (3, 1)] /\ ~ same_distribution [(1, 2); (3, 1)] /\ same_distribution [(1, 2); (3, 6)] /\
  In 0 [3; 0; 2].
Proof.
  split; [|split; [|split]].
  - intros r [<-|[<-|[]]]; cbn; lia.
  - intros H. specialize (H (1, 2) (or_introl eq_refl)). cbn in H. lia.
  - intros r [<-|[<-|[]]]; reflexivity.
  - cbn; auto.
Qed.

(** ** System level *)
(** psi_table counts every actual and every expected record once, in the row of its interval (lo, hi]; the target analysis reports
    the true numbers of records, events and nonevents and the true event rate. *)
Theorem C43_system_counts_everything : forall splits d, increasing splits ->
  zsum (sys_records splits d) = Z.of_nat (length d) /\
  (forall i c, nth_error (sys_records splits d) i = Some c ->
     exists sel, c = Z.of_nat (length (filter sel d)) /\ forall s, sel s = true <-> in_right_bin_i splits i (snd s)) /\
  (forall x, exists! i, in_right_bin_i splits i x) /\
  target_analysis splits d =
    (Z.of_nat (length d), Z.of_nat (length (filter (fun s => negb (fst s)) d)), Z.of_nat (length (filter (fun s => fst s) d)),
     (inject_Z (Z.of_nat (length (filter (fun s => negb (fst s)) d))) / inject_Z (Z.of_nat (length d)))%Q).
Proof.
  intros splits d Hs.
  assert (T : zsum (sys_records splits d) = Z.of_nat (length d)).
  { rewrite sys_records_count. apply (count_split (fun s : ssample => digitize_r splits (snd s))). intros s _. pose proof (digitize_r_le splits (snd s)). lia. }
  split; [exact T|]. split; [|split].
  - intros i c Hi. rewrite sys_records_count in Hi. rewrite nth_error_map in Hi.
    destruct (nth_error (seq 0 (S (length splits))) i) as [j|] eqn:Ej; [|discriminate]. injection Hi as <-.
    assert (j = i).
    { assert (Hl : (i < length (seq 0 (S (length splits))))%nat) by (apply nth_error_Some; congruence). rewrite seq_length in Hl.
      rewrite (nth_error_nth' _ 0%nat) in Ej by (rewrite seq_length; exact Hl). rewrite seq_nth in Ej by exact Hl. now injection Ej as <-. }
    subst j. exists (fun s => Nat.eqb (digitize_r splits (snd s)) i). split; [reflexivity|].
    intros s. rewrite Nat.eqb_eq. now apply digitize_r_in_bin.
  - intros x. exists (digitize_r splits x). split; [now apply digitize_r_in_bin|]. intros j Hj. now apply digitize_r_in_bin in Hj.
  - unfold target_analysis. cbv zeta. rewrite T.
    assert (G : forall (p : ssample -> bool) f, (forall i, f i = count_if (fun s => p s && Nat.eqb (digitize_r splits (snd s)) i) d) ->
      zsum (map f (seq 0 (S (length splits)))) = Z.of_nat (length (filter p d))).
    { intros p f Hf. rewrite (map_ext _ _ Hf).
      rewrite <- (count_split (fun s : ssample => digitize_r splits (snd s)) (filter p d) (S (length splits))).
      - f_equal. apply map_ext. intros i. unfold count_if. f_equal. f_equal. rewrite filter_filter. apply filter_ext. intros a. first [reflexivity|apply andb_comm].
      - intros s _. pose proof (digitize_r_le splits (snd s)). lia. }
    rewrite (G (fun s => negb (fst s)) (sys_event splits d) (fun i => eq_refl)), (G (fun s => fst s) (sys_nonevent splits d) (fun i => eq_refl)). reflexivity.
Qed.
(** The rows are labelled with the left-closed intervals [s_(i-1), s_i) (bin_str_format), but a score equal to a split point is
    counted one row too low. *)
Theorem C43_system_labels_refuted : forall splits i s d, increasing splits -> nth_error splits i = Some s -> In s (map snd d) ->
  (forall z, In z (map snd d) -> z = s) ->
  nth_error (sys_records splits d) i = Some (Z.of_nat (length d)) /\ ~ in_bin_i splits i s /\ in_bin_i splits (S i) s.
Proof.
  intros splits i s d Hs Hi Hin Hall.
  assert (Hl : (i < length splits)%nat) by (apply nth_error_Some; congruence).
  assert (E0 : nth_error (edges splits) i <> None) by (apply nth_error_Some; unfold edges; cbn [length]; rewrite app_length, map_length; cbn [length]; lia).
  assert (Ed : forall j, nth_error (edges splits) (S j) = nth_error (map Some splits ++ [None]) j) by reflexivity.
  assert (E1 : nth_error (edges splits) (S i) = Some (Some s)).
  { rewrite Ed. rewrite nth_error_app1 by (rewrite map_length; exact Hl). now rewrite nth_error_map, Hi. }
  assert (E2 : exists hi, nth_error (edges splits) (S (S i)) = Some hi /\ match hi with None => True | Some b => s < b end).
  { rewrite Ed. destruct (nth_error splits (S i)) as [b|] eqn:Eb.
    - exists (Some b). assert (S i < length splits)%nat by (apply nth_error_Some; congruence).
      rewrite nth_error_app1 by (rewrite map_length; assumption). rewrite nth_error_map, Eb. split; [reflexivity|].
      clear -Hs Hi Eb. unfold increasing in Hs. revert i Hi Eb. induction Hs as [|a l Hl IH Hf]; intros i Hi Eb; [destruct i; discriminate|].
      destruct i as [|i]; cbn [nth_error] in Hi, Eb.
      + injection Hi as <-. rewrite Forall_forall in Hf. apply Hf. destruct l; [discriminate|]. cbn in Eb. injection Eb as <-. now left.
      + now apply (IH i).
    - exists None. split; [|exact I]. apply nth_error_None in Eb. rewrite nth_error_app2 by (rewrite map_length; lia).
      rewrite map_length. replace (S i - length splits)%nat with 0%nat by lia. reflexivity. }
  split; [|split].
  - rewrite sys_records_count, nth_error_map. rewrite (nth_error_nth' _ 0%nat) by (rewrite seq_length; lia). rewrite seq_nth by lia. cbn [option_map].
    f_equal. unfold count_if. f_equal. cbn [Nat.add].
    assert (D : digitize_r splits s = i).
    { apply digitize_r_in_bin; [exact Hs|]. unfold in_right_bin_i. rewrite E1. destruct (nth_error (edges splits) i) as [lo|] eqn:Elo; [|congruence].
      split; [|lia]. destruct lo as [a|]; [|exact I].
      destruct i as [|i]; [discriminate|]. rewrite Ed in Elo. rewrite nth_error_app1 in Elo by (rewrite map_length; lia).
      rewrite nth_error_map in Elo. destruct (nth_error splits i) as [a'|] eqn:Ea; [|discriminate]. injection Elo as <-.
      clear -Hs Hi Ea. unfold increasing in Hs. revert i Hi Ea. induction Hs as [|z l Hl IH Hf]; intros i Hi Ea; [destruct i; discriminate|].
      destruct i as [|i]; cbn [nth_error] in Hi, Ea.
      + injection Ea as <-. rewrite Forall_forall in Hf. apply Hf. destruct l; [discriminate|]. injection Hi as <-. now left.
      + now apply (IH i). }
    clear Hin. induction d as [|a d IH]; [reflexivity|]. cbn [filter]. rewrite (Hall (snd a)) by (now left). rewrite D, Nat.eqb_refl. cbn [length]. f_equal.
    apply IH. intros; apply Hall; now right.
  - unfold in_bin_i. rewrite E1. destruct (nth_error (edges splits) i); [|tauto]. intros [_ K]. cbn in K. lia.
  - unfold in_bin_i. rewrite E1. destruct E2 as (hi & -> & K). split; [cbn; lia|exact K].
Qed.
Print Assumptions C43_system_counts_everything.
Print Assumptions C43_system_labels_refuted.
Example C43_system_hyps_met : increasing [3; 7] /\ sys_rows [3; 7] [(true, 3); (false, 5); (true, 9)] [(true, 1); (false, 2); (false, 7)] =
  [(1, 2); (1, 1); (1, 0)].
Proof. split; [repeat (constructor; [|repeat (constructor; [lia|]); constructor]); constructor|vm_compute; reflexivity]. Qed.

(** ** Variable level *)
(** what transform(metric="indices") returns for the monitoring: the bin of a regular value, and 0 for a missing or special one *)
Definition monitored_index (splits : list Z) (sp : special) (x : xval) : Z :=
  match x with
  | XNaN => 0
  | XNum z => if existsb (xval_eqb x) (flat_codes sp) then 0 else Z.of_nat (digitize splits z)
  end.
Lemma special_dict_const {V} (v : V) mv d x : forall base cur, (exists kv, In kv d /\ isin (snd kv) x = true) ->
  special_dict MIndices (Const true v) mv base d x cur = Ok v.
Proof.
  induction d as [|[k cs] d IH]; intros base cur (kv & Hin & Hx); [destruct Hin|]. cbn [special_dict].
  destruct (existsb (fun kv => isin (snd kv) x) d) eqn:E.
  - apply existsb_exists in E. apply IH. exact E.
  - rewrite special_dict_none.
    + destruct Hin as [<-|Hin]; [cbn [snd] in Hx; now rewrite Hx|].
      assert (existsb (fun kv => isin (snd kv) x) d = true) by (apply existsb_exists; now exists kv). congruence.
    + intros kv' Hkv'. destruct (isin (snd kv') x) eqn:E'; [|reflexivity].
      assert (existsb (fun kv => isin (snd kv) x) d = true) by (apply existsb_exists; now exists kv'). congruence.
Qed.
Lemma var_indices_value splits sp xs : var_indices splits sp xs = map Ok (map (monitored_index splits sp) xs).
Proof.
  unfold var_indices. rewrite map_map. apply map_ext. intros x. destruct x as [|z]; [reflexivity|].
  unfold monitored_index. destruct (existsb (xval_eqb (XNum z)) (flat_codes sp)) eqn:E.
  - fold (isin (flat_codes sp) (XNum z)) in E. unfold transform_indices, transform1_num. cbn [x_isnull]. unfold apply_special.
    destruct sp as [|l|d]; [discriminate| |].
    + cbn [flat_codes] in E. rewrite E. reflexivity.
    + apply special_dict_const. unfold isin in E. apply existsb_exists in E. destruct E as (c & Hc & Ec).
      cbn [flat_codes] in Hc. try rewrite flat_map_concat_map in Hc. apply in_concat in Hc. destruct Hc as (cs & Hcs & Hc). apply in_map_iff in Hcs. destruct Hcs as (kv & <- & Hkv).
      exists kv. split; [exact Hkv|]. unfold isin. apply existsb_exists. eauto.
  - apply indices_clean. unfold is_clean. cbn [x_isnull negb andb]. destruct sp; [reflexivity| |]; unfold isin; rewrite E; reflexivity.
Qed.
Lemma max_ge te x : In x te -> x <= fold_right Z.max 0 te.
Proof. induction te as [|a te IH]; intros H; [destruct H|]. cbn [fold_right]. destruct H as [<-|H]; [lia|]. specialize (IH H). lia. Qed.
Lemma max_nonneg te : 0 <= fold_right Z.max 0 te.
Proof. induction te; cbn [fold_right]; lia. Qed.
Lemma count_range l m : (forall x, In x l -> 0 <= x) -> 0 <= m ->
  zsum (map (fun i => count_if (Z.eqb (Z.of_nat i)) l) (seq 0 (Z.to_nat (m + 1)))) = Z.of_nat (length (filter (fun x => x <=? m) l)).
Proof.
  intros H Hm. rewrite <- (count_split Z.to_nat (filter (fun x => x <=? m) l) (Z.to_nat (m + 1))).
  - f_equal. apply map_ext_in. intros i Hi. apply in_seq in Hi. unfold count_if. f_equal. f_equal. rewrite filter_filter.
    apply filter_ext_in. intros x Hx. specialize (H x Hx).
    destruct (Z.eqb_spec (Z.of_nat i) x), (Nat.eqb_spec (Z.to_nat x) i), (Z.leb_spec x m); cbn [andb]; try reflexivity; lia.
  - intros x Hx. apply filter_In in Hx. destruct Hx as [Hx Hle]. specialize (H x Hx). apply Z.leb_le in Hle. lia.
Qed.
(** Every expected record is counted; of the actual records, exactly those whose index does not exceed the largest expected index. *)
Theorem C43_variable_counts : forall splits sp actual expected ta te,
  all_ok (var_indices splits sp actual) ta -> all_ok (var_indices splits sp expected) te ->
  zsum (map snd (var_rows ta te)) = Z.of_nat (length expected) /\
  zsum (map fst (var_rows ta te)) = Z.of_nat (length (filter (fun x => monitored_index splits sp x <=? fold_right Z.max 0 te) actual)) /\
  (forall z, In (XNum z) expected -> ~ In (XNum z) (flat_codes sp) -> digitize splits z = length splits ->
     zsum (map fst (var_rows ta te)) = Z.of_nat (length actual)).
Proof.
  intros splits sp actual expected ta te Ha He. unfold all_ok in Ha, He. rewrite var_indices_value in Ha, He.
  assert (Inj : forall a b : list Z, map (@Ok Z) a = map (@Ok Z) b -> a = b).
  { induction a as [|x a IH]; intros [|y b] K; try discriminate; [reflexivity|]. cbn [map] in K. injection K as -> K. f_equal. now apply IH. }
  apply Inj in Ha, He. subst ta te.
  assert (Nn : forall l x, In x (map (monitored_index splits sp) l) -> 0 <= x).
  { intros l x Hx. apply in_map_iff in Hx. destruct Hx as ([|z] & <- & _); cbn [monitored_index]; [lia|]. destruct (existsb _ _); lia. }
  unfold var_rows. rewrite !map_map. cbn [fst snd].
  rewrite !count_range by (try apply Nn; apply max_nonneg).
  assert (FM : forall l m, length (filter (fun x => x <=? m) (map (monitored_index splits sp) l)) = length (filter (fun x => monitored_index splits sp x <=? m) l)).
  { intros l m. induction l as [|x l IH]; [reflexivity|]. cbn [map filter]. destruct (_ <=? m); cbn [length]; congruence. }
  assert (All : forall (l : list xval) m, (forall x, In x l -> monitored_index splits sp x <= m) -> filter (fun x => monitored_index splits sp x <=? m) l = l).
  { intros l m. induction l as [|x l IH]; intros H; [reflexivity|]. cbn [filter]. rewrite (proj2 (Z.leb_le _ _) (H x (or_introl eq_refl))). f_equal. apply IH. intros; apply H; now right. }
  rewrite !FM. split; [|split; [reflexivity|]].
  - rewrite All; [reflexivity|]. intros x Hx. apply max_ge. now apply in_map.
  - intros z Hz Hc Hd. rewrite All; [reflexivity|]. intros x Hx.
    assert (Mx : Z.of_nat (length splits) <= fold_right Z.max 0 (map (monitored_index splits sp) expected)).
    { apply max_ge. apply in_map_iff. exists (XNum z). split; [|exact Hz]. unfold monitored_index.
      assert (E : existsb (xval_eqb (XNum z)) (flat_codes sp) = false) by (apply not_true_is_false; intros K; apply Hc; now apply isin_In).
      now rewrite E, Hd. }
    revert Mx. generalize (fold_right Z.max 0 (map (monitored_index splits sp) expected)). intros mx Mx.
    destruct x as [|w]; cbn [monitored_index]; [lia|]. destruct (existsb _ _); [lia|]. pose proof (digitize_le splits w). lia.
Qed.
(** Otherwise actual records are lost: here all the actual records lie in bins above those of the expected data, and the table
    has the single row (0, n). *)
Theorem C43_actual_records_lost_refuted : forall splits sp actual expected ta te,
  all_ok (var_indices splits sp actual) ta -> all_ok (var_indices splits sp expected) te ->
  (forall x, In x expected -> monitored_index splits sp x = 0) -> (forall x, In x actual -> 0 < monitored_index splits sp x) ->
  var_rows ta te = [(0, Z.of_nat (length expected))].
Proof.
  intros splits sp actual expected ta te Ha He H0 H1. unfold all_ok in Ha, He. rewrite var_indices_value in Ha, He.
  assert (Inj : forall a b : list Z, map (@Ok Z) a = map (@Ok Z) b -> a = b).
  { induction a as [|x a IH]; intros [|y b] K; try discriminate; [reflexivity|]. cbn [map] in K. injection K as -> K. f_equal. now apply IH. }
  apply Inj in Ha, He. subst ta te.
  assert (Ee : map (monitored_index splits sp) expected = repeat 0 (length expected)).
  { clear -H0. induction expected as [|x l IH]; [reflexivity|]. cbn [map length repeat]. rewrite H0 by (now left). f_equal. apply IH. intros; apply H0; now right. }
  rewrite Ee. unfold var_rows.
  assert (M : fold_right Z.max 0 (repeat 0 (length expected)) = 0) by (clear; generalize (length expected); intros k; induction k as [|k IHk]; [reflexivity|]; cbn [repeat fold_right]; rewrite IHk; reflexivity).
  rewrite M. change (Z.to_nat (0 + 1)) with 1%nat. cbn [seq map]. f_equal. f_equal; unfold count_if.
  - assert (E : filter (Z.eqb (Z.of_nat 0)) (map (monitored_index splits sp) actual) = []); [|now rewrite E].
    clear -H1. induction actual as [|x l IH]; [reflexivity|]. cbn [map filter]. specialize (H1 x (or_introl eq_refl)) as K.
    destruct (Z.eqb_spec (Z.of_nat 0) (monitored_index splits sp x)); [lia|]. apply IH. intros; apply H1; now right.
  - f_equal. clear. generalize (length expected). intros k. induction k as [|n IHn]; [reflexivity|]. cbn [repeat filter]. change (Z.of_nat 0 =? 0) with true. cbn [length]. now rewrite IHn.
Qed.
(** Missing and special records are counted in the first bin: a sample turning entirely into missing values has the same table as
    one staying in the first bin, and PSI 0. *)
Theorem C43_missing_counted_as_first_bin_refuted : forall splits sp n m ta te z, (0 < n)%nat -> (0 < m)%nat ->
  ~ In (XNum z) (flat_codes sp) -> digitize splits z = 0%nat ->
  all_ok (var_indices splits sp (repeat XNaN n)) ta -> all_ok (var_indices splits sp (repeat (XNum z) m)) te ->
  var_rows ta te = [(Z.of_nat n, Z.of_nat m)] /\ psi_total (var_rows ta te) = XFin 0.
Proof.
  intros splits sp n m ta te z Hn Hm Hc Hd Ha He. unfold all_ok in Ha, He. rewrite var_indices_value in Ha, He.
  assert (Inj : forall a b : list Z, map (@Ok Z) a = map (@Ok Z) b -> a = b).
  { induction a as [|x a IH]; intros [|y b] K; try discriminate; [reflexivity|]. cbn [map] in K. injection K as -> K. f_equal. now apply IH. }
  apply Inj in Ha, He. subst ta te.
  assert (E : existsb (xval_eqb (XNum z)) (flat_codes sp) = false) by (apply not_true_is_false; intros K; apply Hc; now apply isin_In).
  assert (R : forall x k, monitored_index splits sp x = 0 -> map (monitored_index splits sp) (repeat x k) = repeat 0 k).
  { intros x k Hx. induction k as [|k IH]; [reflexivity|]. cbn [repeat map]. now rewrite Hx, IH. }
  rewrite !R by (try reflexivity; unfold monitored_index; now rewrite E, Hd).
  assert (M : forall k, fold_right Z.max 0 (repeat 0 k) = 0) by (induction k as [|k IH]; [reflexivity|]; cbn [repeat fold_right]; rewrite IH; reflexivity).
  assert (C : forall k, count_if (Z.eqb (Z.of_nat 0)) (repeat 0 k) = Z.of_nat k).
  { intros k. unfold count_if. f_equal. induction k as [|k IH]; [reflexivity|]. cbn [repeat filter]. change (Z.of_nat 0 =? 0) with true. cbn [length]. now rewrite IH. }
  assert (V : var_rows (repeat 0 n) (repeat 0 m) = [(Z.of_nat n, Z.of_nat m)]).
  { unfold var_rows. rewrite M. change (Z.to_nat (0 + 1)) with 1%nat. cbn [seq map]. now rewrite !C. }
  rewrite V. split; [reflexivity|].
  destruct (C43_psi_divergence [(Z.of_nat n, Z.of_nat m)]) as [_ (v & Ev & _ & _ & Z0)]; [discriminate|intros r [<-|[]]; cbn; lia|].
  rewrite Ev. f_equal. apply Z0. intros r [<-|[]]. cbn [fst snd map zsum]. lia.
Qed.
Print Assumptions C43_variable_counts.
Print Assumptions C43_actual_records_lost_refuted.
Print Assumptions C43_missing_counted_as_first_bin_refuted.
Example C43_variable_hyps_met : exists ta te,
  all_ok (var_indices [3; 7] (SpList [XNum 99]) [XNum 1; XNaN; XNum 8; XNum 99]) ta /\
  all_ok (var_indices [3; 7] (SpList [XNum 99]) [XNum 2; XNum 5; XNaN]) te /\
  var_rows ta te = [(3, 2); (0, 1)] /\ fold_right Z.max 0 te = 1.
Proof. eexists [0; 0; 2; 0], [0; 1; 0]. repeat split; vm_compute; reflexivity. Qed.
