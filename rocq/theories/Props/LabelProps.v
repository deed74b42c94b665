(** C73: the text of the bins (Bin column of every table, transform(metric="bins")). *)
From Coq Require Import List ZArith Bool Ascii String Lia Sorted.
From Verif Require Import Model.Arr Model.Core Model.Prebin Model.Label Spec.CoreSpec Spec.PrebinSpec Spec.LabelSpec
  Proofs.CoreP Proofs.FitP Proofs.CoreFinal Proofs.PrebinP Proofs.LabelP Props.CoreProps.
Import ListNotations.
Open Scope string_scope.
Open Scope Z_scope.

(** A printed number: read back, it has show_digits digits after the point, a minus sign exactly for negative values, and is the nearest
    decimal; two values have the same text exactly when they round to the same decimal and have the same sign. *)
Theorem C73_number_text : forall d U, 0 < U -> (forall v, shows d U v (fmt d U v)) /\ (forall a b, fmt d U a = fmt d U b <-> alike U a b).
Proof. intros d U HU. split; [intros v; now apply fmt_shows|intros a b; now apply fmt_alike]. Qed.
Print Assumptions C73_number_text.

(** One label per bin; label k shows the two ends of bin k, "(-inf" for the first, "inf" for the last. *)
Theorem C73_label_shows_bin : forall d U splits, 0 < U -> List.length (bin_labels d U splits) = S (List.length splits) /\
  forall k, (k <= List.length splits)%nat -> exists lo hi, nth_error (bin_labels d U splits) k = Some (interval_label (Nat.eqb k 0) lo hi) /\
    match k with O => lo = "-inf" | S j => exists s, nth_error splits j = Some s /\ shows d U s lo end /\
    match nth_error splits k with Some s => shows d U s hi | None => hi = "inf" end.
Proof.
  intros d U splits HU. split; [apply labels_len|]. intros k Hk. unfold bin_labels. fold (ends splits). rewrite format_nth, !ends_nth.
  destruct k as [|j].
  - destruct (nth_error splits 0) as [s|] eqn:E.
    + exists "-inf", (fmt d U s). split; [reflexivity|]. split; [reflexivity|now apply fmt_shows].
    + apply nth_error_None in E. destruct splits; [|cbn in E; lia]. exists "-inf", "inf". auto.
  - destruct (nth_error splits j) as [s|] eqn:E; [|apply nth_error_None in E; lia]. destruct (nth_error splits (S j)) as [t|] eqn:F.
    + exists (fmt d U s), (fmt d U t). split; [reflexivity|]. split; [exists s; split; [reflexivity|now apply fmt_shows]|now apply fmt_shows].
    + apply nth_error_None in F. destruct (Nat.eqb_spec (S j) (List.length splits)) as [Q|Q]; [|lia].
      exists (fmt d U s), "inf". split; [reflexivity|]. split; [exists s; split; [reflexivity|now apply fmt_shows]|reflexivity].
Qed.
Print Assumptions C73_label_shows_bin.

(** The labels of the bins are distinct exactly when no three consecutive splits are printed alike; in particular when splits two apart
    differ by more than one unit of the last shown digit, or when the splits are different decimals with at most show_digits digits. *)
Theorem C73_labels_distinct : forall d U splits, 0 < U -> nondecreasing splits ->
  (NoDup (bin_labels d U splits) <->
   ~ exists k a b c, nth_error splits k = Some a /\ nth_error splits (S k) = Some b /\ nth_error splits (S (S k)) = Some c /\ alike U a b /\ alike U b c) /\
  ((forall k a c, nth_error splits k = Some a -> nth_error splits (S (S k)) = Some c -> U < c - a) -> NoDup (bin_labels d U splits)) /\
  (increasing splits -> (forall s, In s splits -> (U | s)) -> NoDup (bin_labels d U splits)).
Proof.
  intros d U splits HU N. split; [now apply labels_nodup|]. split.
  - intros H. apply labels_nodup; [exact HU|exact N|]. now apply spaced_no_triple.
  - intros I D. apply labels_nodup; [exact HU|exact N|]. intros (k & a & b & c & A & B & C & [_ (r & R1 & R2)] & _).
    assert (X : forall s, In s splits -> rounds_to U s s).
    { intros s Hs. split; [auto|]. replace (s - s) with 0 by ring. cbn. split; [lia|intros Q; lia]. }
    assert (a = r) by (apply (rounds_unique U a); [exact HU|apply X; eapply nth_error_In, A|exact R1]).
    assert (b = r) by (apply (rounds_unique U b); [exact HU|apply X; eapply nth_error_In, B|exact R2]).
    subst. clear -I A B. revert k A B. induction I as [|s l Hl IH Hf]; intros k A B; [destruct k; discriminate|]. destruct k as [|k]; cbn in A, B; [|exact (IH _ A B)].
    injection A as ->. rewrite Forall_forall in Hf. change (nth_error l 0 = Some r) in B. specialize (Hf r (nth_error_In _ _ B)). lia.
Qed.
Print Assumptions C73_labels_distinct.

(** transform(metric="bins") returns the text of the row of the record, whatever metric_special and metric_missing say. *)
Theorem C73_transform_bins : forall key sp d U splits ms mm x k, nondecreasing splits -> sp_disjoint sp -> row_of splits sp x k ->
  List.length (row_labels key sp d U splits) = (S (List.length splits) + n_special sp + 1)%nat /\
  exists l, nth_error (row_labels key sp d U splits) k = Some l /\ transform_bins key sp d U splits ms mm x = Ok l.
Proof.
  intros key sp d U splits ms mm x k N D R.
  assert (L : List.length (row_labels key sp d U splits) = (S (List.length splits) + n_special sp + 1)%nat).
  { unfold row_labels. rewrite !app_length, labels_len. destruct sp as [|l|l]; cbn [n_special List.length]; [lia|lia|rewrite map_length; lia]. }
  split; [exact L|].
  assert (T : forall a j, @table_or_const string MBins a (row_labels key sp d U splits) j = idx (row_labels key sp d U splits) j) by (intros [|b v] j; reflexivity).
  assert (Hk : (k < S (List.length splits) + n_special sp + 1)%nat).
  { destruct x as [|z]; cbn [row_of] in R; [lia|]. destruct R as [(i & Hi & ->)|[_ Hb]]; [apply special_index_lt in Hi; lia|]. apply in_bin_i_lt in Hb. lia. }
  destruct (nth_error (row_labels key sp d U splits) k) as [l|] eqn:E; [|apply nth_error_None in E; lia]. exists l. split; [reflexivity|]. unfold transform_bins.
  destruct x as [|z]; cbn [row_of] in R.
  - rewrite transform1_missing, T, <- R. unfold idx. now rewrite E.
  - destruct R as [(i & Hi & ->)|[Hc Hb]].
    + rewrite (transform1_special splits sp _ _ _ _ _ z i D Hi), T. unfold idx. now rewrite E.
    + now apply (values_are_bins splits sp MBins ms mm _ "unknown" z k l N Hc Hb).
Qed.
Print Assumptions C73_transform_bins.

(** When the bin labels are distinct and the keys of the special codes are distinct texts, none of them "Missing" or an interval, two
    records have the same text exactly when they belong to the same row. *)
Theorem C73_same_text_same_row : forall key sp d U splits ms mm x x' k k' l l', 0 < U -> nondecreasing splits -> sp_disjoint sp ->
  NoDup (bin_labels d U splits) ->
  (forall dict, sp = SpDict dict -> NoDup (map (fun kv => key (fst kv)) dict) /\
     forall kv, In kv dict -> key (fst kv) <> "Missing" /\ ~ In (key (fst kv)) (bin_labels d U splits)) ->
  row_of splits sp x k -> row_of splits sp x' k' ->
  transform_bins key sp d U splits ms mm x = Ok l -> transform_bins key sp d U splits ms mm x' = Ok l' -> (l = l' <-> k = k').
Proof.
  intros key sp d U splits ms mm x x' k k' l l' HU N D ND HK R R' E E'.
  destruct (C73_transform_bins key sp d U splits ms mm x k N D R) as (L & l1 & F & G). destruct (C73_transform_bins key sp d U splits ms mm x' k' N D R') as (_ & l2 & F' & G').
  assert (l1 = l) by congruence. assert (l2 = l') by congruence. subst l1 l2.
  assert (A : NoDup (row_labels key sp d U splits)).
  { assert (App : forall (p q : list string), NoDup p -> NoDup q -> (forall s, In s p -> ~ In s q) -> NoDup (p ++ q)).
    { clear. intros p q Hp Hq H. induction Hp as [|s p Hs Hp IH]; [exact Hq|]. cbn. constructor.
      - intros Q. apply in_app_iff in Q. destruct Q as [Q|Q]; [tauto|]. exact (H s (or_introl eq_refl) Q).
      - apply IH. intros t Ht. apply H. now right. }
    unfold row_labels. apply App; [exact ND| |].
    - destruct sp as [|c|dict].
      + repeat constructor; cbn; intuition discriminate.
      + repeat constructor; cbn; intuition discriminate.
      + destruct (HK dict eq_refl) as [K1 K2]. apply App; [exact K1|repeat constructor; cbn; tauto|]. intros s Hs [Q|[]]. apply in_map_iff in Hs. destruct Hs as (kv & <- & Hkv).
        destruct (K2 kv Hkv) as [K _]. congruence.
    - intros s Hs Q. destruct (label_not_word d U splits s HU Hs) as (W1 & W2 & _). apply in_app_iff in Q. destruct Q as [Q|[Q|[]]]; [|congruence].
      destruct sp as [|c|dict]; [destruct Q as [Q|[]]; congruence|destruct Q as [Q|[]]; congruence|]. apply in_map_iff in Q. destruct Q as (kv & Q & Hkv).
      destruct (HK dict eq_refl) as [_ K2]. destruct (K2 kv Hkv) as [_ K]. apply K. now rewrite Q. }
  split.
  - intros ->. rewrite NoDup_nth_error in A. apply A; [apply nth_error_Some; congruence|congruence].
  - intros ->. congruence.
Qed.
Print Assumptions C73_same_text_same_row.

(** ** refutations (values in thousandths, show_digits 2, the default) *)
(** Four bins of a fit with splits 0.001, 0.002, 0.003: two rows have the same text, and transform(metric="bins") gives records of
    different bins the same text. *)
Theorem C73_labels_collide_refuted : exists f,
  fit_numerical 1 IV ex_solver_all SpNone None None [1; 2; 3] (map XNum [0; 0; 1; 1; 2; 2; 3; 3]) [Y0; Y1; Y0; Y1; Y0; Y1; Y0; Y1] (repeat 1 8) = Some (Ok f) /\
  f_splits f = [1; 2; 3] /\ bin_labels 2 10 (f_splits f) = ["(-inf, 0.00)"; "[0.00, 0.00)"; "[0.00, 0.00)"; "[0.00, inf)"] /\
  row_of (f_splits f) SpNone (XNum 1) 1 /\ row_of (f_splits f) SpNone (XNum 2) 2 /\
  forall key ms mm, transform_bins key SpNone 2 10 (f_splits f) ms mm (XNum 1) = Ok "[0.00, 0.00)" /\ transform_bins key SpNone 2 10 (f_splits f) ms mm (XNum 2) = Ok "[0.00, 0.00)".
Proof.
  eexists. split; [vm_compute; reflexivity|]. split; [reflexivity|]. split; [vm_compute; reflexivity|]. cbn [f_splits].
  split; [right; split; [cbn; tauto|vm_compute; intuition congruence]|]. split; [right; split; [cbn; tauto|vm_compute; intuition congruence]|].
  intros key ms mm. split; vm_compute; reflexivity.
Qed.
Print Assumptions C73_labels_collide_refuted.

(** The displayed interval need not contain the records of the bin: 0.996 is the first value of the bin shown as "[1.00, inf)". *)
Theorem C73_label_misleads_refuted : exists q, in_bin_i [996] 1 996 /\ nth_error (bin_labels 2 10 [996]) 1 = Some (interval_label false "1.00" "inf") /\
  read_number "1.00" = Some (false, q, 2%nat) /\ 996 < q * 10.
Proof. exists 100. split; [vm_compute; intuition congruence|]. split; [vm_compute; reflexivity|]. split; [vm_compute; reflexivity|lia]. Qed.
Print Assumptions C73_label_misleads_refuted.

(** A key "Missing" of the special codes: special and missing records get the same text. *)
Theorem C73_special_key_refuted : exists key sp, sp = SpDict [(0, [XNum (-9)])] /\ key 0 = "Missing" /\
  row_of [4] sp (XNum (-9)) 2 /\ row_of [4] sp XNaN 3 /\
  forall ms mm, transform_bins key sp 2 10 [4] ms mm (XNum (-9)) = Ok "Missing" /\ transform_bins key sp 2 10 [4] ms mm XNaN = Ok "Missing".
Proof.
  exists (fun _ => "Missing"), (SpDict [(0, [XNum (-9)])]). split; [reflexivity|]. split; [reflexivity|].
  split; [left; exists 0%nat; split; [eexists; split; [reflexivity|cbn; tauto]|reflexivity]|]. split; [reflexivity|]. intros ms mm. destruct ms, mm; split; vm_compute; reflexivity.
Qed.
Print Assumptions C73_special_key_refuted.

Example C73_hyps_met : nondecreasing [-1234; -3; 0; 17; 125] /\ NoDup (bin_labels 2 10 [-1234; -3; 0; 17; 125]) /\
  bin_labels 2 10 [-1234; -3; 0; 17; 125] = ["(-inf, -1.23)"; "[-1.23, -0.00)"; "[-0.00, 0.00)"; "[0.00, 0.02)"; "[0.02, 0.12)"; "[0.12, inf)"] /\
  bin_labels 0 10 [25; 105] = ["(-inf, 2)"; "[2, 10)"; "[10, inf)"] /\
  transform_bins (fun _ => "") (SpList [XNum (-9)]) 2 10 [17] Empirical Empirical (XNum (-9)) = Ok "Special".
Proof.
  split; [repeat constructor; lia|]. split; [|split; [vm_compute; reflexivity|split; [vm_compute; reflexivity|vm_compute; reflexivity]]].
  change (NoDup (bin_labels 2 10 [-1234; -3; 0; 17; 125])). assert (E : bin_labels 2 10 [-1234; -3; 0; 17; 125] = ["(-inf, -1.23)"; "[-1.23, -0.00)"; "[-0.00, 0.00)"; "[0.00, 0.02)"; "[0.02, 0.12)"; "[0.12, inf)"]) by (vm_compute; reflexivity).
  rewrite E. repeat constructor; cbn; intuition discriminate.
Qed.
