(** C72: pre-binning with a decision tree (prebinning_method="cart"), min_prebin_size, split_digits. *)
From Coq Require Import List ZArith Bool Lia Sorted.
From Verif Require Import Model.Arr Model.Core Model.Cat Model.Cont Model.Multi Model.Prebin Spec.CoreSpec Spec.CatSpec Spec.PrebinSpec Spec.ContSpec Spec.MultiSpec
  Proofs.CoreP Proofs.CoreFinal Proofs.ContP Proofs.ContFinal Proofs.MultiP Proofs.MultiFinal Proofs.PrebinP Proofs.PrebinQ
  Props.CoreProps Props.CatProps Props.ContProps Props.MultiProps.
Import ListNotations.
Open Scope Z_scope.

(** Rounding: every value has exactly one rounding, the nearest multiple (ties to even), and rounding keeps the order. *)
Theorem C72_rounding : forall U v, 0 < U -> exists s, round_to U v = s /\ rounds_to U v s /\ (forall s', rounds_to U v s' -> s' = s) /\
  (forall w, v <= w -> s <= round_to U w).
Proof.
  intros U v HU. exists (round_to U v). split; [reflexivity|]. split; [now apply round_rounds|]. split.
  - intros s' H. apply (rounds_unique U v); [exact HU|exact H|now apply round_rounds].
  - intros w H. now apply round_mono.
Qed.
Print Assumptions C72_rounding.

(** The splits of the tree: strictly increasing, exactly the thresholds of its inner nodes (except a threshold equal to -2), and
    never more bins than leaves. *)
Theorem C72_cart_splits : forall u t, increasing (tree_splits u t) /\ (forall s, In s (tree_splits u t) <-> inner t s /\ s <> -2 * u) /\
  (S (length (tree_splits u t)) <= leaves t)%nat.
Proof. intros u t. split; [apply tree_splits_incr|]. split; [apply tree_splits_In|apply tree_splits_len]. Qed.
Print Assumptions C72_cart_splits.

(** min_prebin_size: if every leaf of the tree holds at least m clean records and no record lies on a threshold, every bin of the
    final binning holds at least m of them (without split_digits). *)
Theorem C72_min_prebin_size : forall u m t sp, (1 <= m)%nat ->
  (forall wu d solver xs ys sw f, grown m t (clean_values sp xs) -> (forall s, inner t s -> ~ In s (clean_values sp xs)) ->
     fit_numerical_d None wu d solver sp None None (tree_splits u t) xs ys sw = Some (Ok f) -> bins_hold m (f_splits f) (clean_values sp xs)) /\
  (forall old solver rs f, let vs := map (fun r => num (k_x r)) (filter (k_clean sp) rs) in grown m t vs -> (forall s, inner t s -> ~ In s vs) ->
     fit_cont_d None old solver sp None None (tree_splits u t) rs = Some (Ok f) -> bins_hold m (Cont.cf_splits f) vs) /\
  (forall solver rs f, let vs := map (fun r => num (m_x r)) (filter (m_clean sp) rs) in grown m t vs -> (forall s, inner t s -> ~ In s vs) ->
     fit_multi_d None solver sp None None (tree_splits u t) rs = Some (Ok f) -> bins_hold m (mf_splits f) vs).
Proof.
  intros u m t sp Hm. split; [|split].
  - intros * G NT H. eapply tree_hold; [exact Hm|exact G|exact NT|]. eapply fit_subseq; [apply incr_nondecr, (tree_splits_incr u t)|exact H].
  - intros * G NT H. eapply tree_hold; [exact Hm|exact G|exact NT|]. eapply cont_subseq, H.
  - intros * G NT H. eapply tree_hold; [exact Hm|exact G|exact NT|]. destruct (multi_subseq _ _ _ _ _ _ _ H) as (S & classes & data & [R _ _] & _).
    eapply subseq_trans; [exact S|exact R].
Qed.
Print Assumptions C72_min_prebin_size.

(** split_digits: every final split is the rounding of a split of the pre-binning (or of the user) and the splits stay in order, without
    duplicates (for the divergences whose refinement removes empty bins). *)
Theorem C72_split_digits : forall U, 0 < U ->
  (forall wu d solver sp fixed user splits0 xs ys sw f, nondecreasing splits0 ->
     fit_numerical_d (Some U) wu d solver sp fixed user splits0 xs ys sw = Some (Ok f) ->
     rounded_from U splits0 (f_splits f) /\ nondecreasing (f_splits f) /\ (d = IV \/ d = JS -> increasing (f_splits f))) /\
  (forall wu u d solver sp cut order prebinning xs ys sw f, (forall data, nondecreasing (prebinning data)) ->
     fit_categorical_d (Some U) wu u d solver sp cut order prebinning xs ys sw = Some (Ok f) ->
     exists data, rounded_from U (prebinning data) (Cat.cf_splits f)) /\
  (forall old solver sp fixed user splits0 rs f, nondecreasing splits0 -> c_solver_ok solver ->
     fit_cont_d (Some U) old solver sp fixed user splits0 rs = Some (Ok f) -> rounded_from U splits0 (Cont.cf_splits f) /\ increasing (Cont.cf_splits f)) /\
  (forall solver sp fixed user splits0 rs f, nondecreasing splits0 -> mf_classes f <> [] ->
     fit_multi_d (Some U) solver sp fixed user splits0 rs = Some (Ok f) -> rounded_from U splits0 (mf_splits f) /\ increasing (mf_splits f)).
Proof.
  intros U HU. split; [|split; [|split]].
  - intros * N H. unfold fit_numerical_d in H. cbn [rounded] in H. pose proof (rounded_nondecr U _ HU N) as N'. destruct (fit_subseq _ _ _ _ _ _ _ _ _ _ _ N' H) as [S I].
    split; [now apply rounded_subseq|]. split; [exact (subseq_nondecr _ _ S N')|exact I].
  - intros * N H. unfold fit_categorical_d in H. destruct (cat_subseq _ _ _ _ _ _ _ _ _ _ _ _ (fun data => rounded_nondecr U _ HU (N data)) H) as (data & S).
    exists data. now apply rounded_subseq.
  - intros * N K H. unfold fit_cont_d in H. cbn [rounded] in H. split; [|exact (cont_increasing _ _ _ _ _ _ _ _ (rounded_nondecr U _ HU N) K H)].
    apply rounded_subseq; [exact HU|]. exact (cont_subseq _ _ _ _ _ _ _ _ H).
  - intros * N C H. unfold fit_multi_d in H. cbn [rounded] in H. split; [|exact (multi_increasing _ _ _ _ _ _ _ (rounded_nondecr U _ HU N) C H)].
    apply rounded_subseq; [exact HU|]. destruct (multi_subseq _ _ _ _ _ _ _ H) as (S & classes & data & [R _ _] & _). eapply subseq_trans; [exact S|exact R].
Qed.
Print Assumptions C72_split_digits.

(** With split_digits the table is still the one of the displayed splits: the records counted in a row are those transform sends there. *)
Theorem C72_table_matches_transform : forall dg, (forall U, dg = Some U -> 0 < U) ->
  (forall d solver sp fixed user splits0 xs ys sw f, length xs = length ys -> length xs = length sw ->
     ~ In YNaN ys -> ~ In XNaN (flat_codes sp) -> sp_disjoint sp -> nondecreasing splits0 -> solver_ok solver ->
     fit_numerical_d dg 1 d solver sp fixed user splits0 xs ys sw = Some (Ok f) ->
     let n_rows := (S (length (f_splits f)) + n_special sp + 1)%nat in
     let weight_to := fun nonevent k => weight_of (fun r => Bool.eqb (y_is0 (row_y r)) nonevent &&
          match transform_indices (f_splits f) sp Empirical Empirical (row_x r) with Ok z => Z.eqb z (Z.of_nat k) | Err _ => false end) (rows xs ys sw) in
     forall k, (k < n_rows)%nat -> nth_error (f_nev f) k = Some (weight_to true k) /\ nth_error (f_ev f) k = Some (weight_to false k)) /\
  (forall old solver sp fixed user splits0 rs f, nondecreasing splits0 -> c_solver_ok solver ->
     fit_cont_d dg old solver sp fixed user splits0 rs = Some (Ok f) ->
     forall k p, (k <= length (Cont.cf_splits f))%nat -> (forall r, p r = true <-> in_row sp (Cont.cf_splits f) k r) ->
     exists row, nth_error (cf_rows f) k = Some row /\ filter p rs <> [] /\ row_exact row (filter p rs)) /\
  (forall solver sp fixed user splits0 rs f, nondecreasing splits0 -> m_solver_ok solver -> ~ In XNaN (flat_codes sp) ->
     fit_multi_d dg solver sp fixed user splits0 rs = Some (Ok f) ->
     forall c cl, nth_error (mf_classes f) c = Some cl -> exists col, nth_error (mf_cols f) c = Some col /\
     forall k p, (k < S (length (mf_splits f)) + n_special sp + 1)%nat -> (forall r, p r = true <-> m_y r = Some cl /\ row_of (mf_splits f) sp (m_x r) k) ->
       nth_error col k = Some (Z.of_nat (length (filter p rs)))).
Proof.
  intros dg HU. split; [|split].
  - intros * L1 L2 NY NX SD N K H. unfold fit_numerical_d in H. apply (C03_table_matches_transform _ _ _ _ _ _ _ _ _ _ L1 L2 NY NX SD (rounded_ok dg _ HU N) K H).
  - intros * N K H. unfold fit_cont_d in H. apply (C27_rows_exact _ _ _ _ _ _ _ _ (rounded_ok dg _ HU N) K H).
  - intros * N K NX H c cl Hc. unfold fit_multi_d in H. destruct (C52_table_exact _ _ _ _ _ _ _ (rounded_ok dg _ HU N) K NX H) as (_ & _ & _ & T).
    destruct (T c cl Hc) as (_ & col & E & _ & Q). eauto.
Qed.
Print Assumptions C72_table_matches_transform.

(** ** refutations *)
Definition ex72_xs : list xval := map XNum [-3; -3; -3; -1; -1; -1].
Definition ex72_ys : list yval := [Y0; Y0; Y1; Y0; Y1; Y1].
Definition ex72_sw : list Z := repeat 1 6.
Definition shift72 : list xval := map XNum [-2; -2; -2; 0; 0; 0].
(** A genuine threshold equal to -2 is dropped: records at -3 and -1, the tree splits at their midpoint -2, the binning has one bin.
    The same data moved by 1 has two bins. *)
Theorem C72_cart_threshold_minus_two_refuted : exists t t' f f',
  inner t (-2) /\ grown 3 t (clean_values SpNone ex72_xs) /\ t = Node (-2) Leaf Leaf /\
  t' = Node (-1) Leaf Leaf /\ grown 3 t' (clean_values SpNone shift72) /\
  fit_numerical_d None 1 IV ex_solver_all SpNone None None (tree_splits 1 t) ex72_xs ex72_ys ex72_sw = Some (Ok f) /\ f_splits f = [] /\
  fit_numerical_d None 1 IV ex_solver_all SpNone None None (tree_splits 1 t') shift72 ex72_ys ex72_sw = Some (Ok f') /\ f_splits f' = [-1].
Proof.
  exists (Node (-2) Leaf Leaf), (Node (-1) Leaf Leaf). eexists. eexists. split; [left; reflexivity|]. split; [vm_compute; lia|]. split; [reflexivity|]. split; [reflexivity|].
  split; [vm_compute; lia|]. split; [vm_compute; reflexivity|]. split; [reflexivity|]. split; [vm_compute; reflexivity|reflexivity].
Qed.
Print Assumptions C72_cart_threshold_minus_two_refuted.

(** split_digits moves a split the user fixed: 0.4 becomes 0 with split_digits=0 (values in tenths). *)
Theorem C72_fixed_split_moved_refuted : exists f,
  fit_numerical_d (Some 10) 1 IV ex_solver_all SpNone (Some [true]) (Some [4]) [4] (map XNum [-5; -5; 2; 2; 8; 8]) [Y0; Y1; Y0; Y1; Y1; Y0] ex72_sw = Some (Ok f) /\
  f_splits f = [0] /\ ~ In 4 (f_splits f).
Proof. eexists. split; [vm_compute; reflexivity|]. split; [reflexivity|]. cbn. lia. Qed.
Print Assumptions C72_fixed_split_moved_refuted.

(** Rounding can leave a bin with fewer than min_prebin_size records. *)
Definition ex72_small : list xval := map XNum [1; 1; 1; 16; 16; 21; 22].
Theorem C72_min_size_lost_by_rounding_refuted : exists t f, grown 3 t (clean_values SpNone ex72_small) /\ (forall s, inner t s -> ~ In s (clean_values SpNone ex72_small)) /\
  fit_numerical_d (Some 10) 1 IV ex_solver_all SpNone None None (tree_splits 10 t) ex72_small [Y0; Y0; Y1; Y0; Y1; Y1; Y0] (repeat 1 7) = Some (Ok f) /\
  f_splits f = [20] /\ ~ bins_hold 3 (f_splits f) (clean_values SpNone ex72_small).
Proof.
  exists (Node 15 Leaf Leaf). eexists. split; [vm_compute; lia|]. split; [intros s [->|[[]|[]]]; vm_compute; lia|]. split; [vm_compute; reflexivity|]. split; [reflexivity|].
  cbn [f_splits]. intros H. specialize (H 1%nat (fun z => 20 <=? z) ltac:(cbn; lia)).
  assert (E : forall z, (20 <=? z) = true <-> in_bin_i [20] 1 z) by (intros z; rewrite Z.leb_le; unfold in_bin_i, in_bin; cbn [edges nth_error map app]; cbn; intuition).
  specialize (H E). vm_compute in H. lia.
Qed.
Print Assumptions C72_min_size_lost_by_rounding_refuted.

(** A categorical variable with split_digits=0 (what BinningProcess(split_digits=0) passes to every variable): the split 0.5 between
    the first two categories becomes 0 and disappears. *)
Theorem C72_categorical_digits0_refuted : exists f f', let prebinning := fun _ : list csample => [1] in
  fit_categorical_d None 1 2 IV ex_solver_all SpNone None sort_cats prebinning (map XNum [7; 7; 7; 8; 8; 8]) ex72_ys ex72_sw = Some (Ok f) /\
  bin_categorical 2 (Cat.cf_splits f) (cf_cats f) (cf_others f) = [[7]; [8]] /\
  fit_categorical_d (Some 2) 1 2 IV ex_solver_all SpNone None sort_cats prebinning (map XNum [7; 7; 7; 8; 8; 8]) ex72_ys ex72_sw = Some (Ok f') /\
  bin_categorical 2 (Cat.cf_splits f') (cf_cats f') (cf_others f') = [[7; 8]].
Proof. eexists. eexists. split; [vm_compute; reflexivity|]. split; [vm_compute; reflexivity|]. split; [vm_compute; reflexivity|vm_compute; reflexivity]. Qed.
Print Assumptions C72_categorical_digits0_refuted.

Example C72_hyps_met : exists t f, t = Node 25 (Node 12 Leaf Leaf) Leaf /\ tree_splits 10 t = [12; 25] /\
  let xs := map XNum [1; 1; 13; 14; 27; 28] in
  grown 2 t (clean_values SpNone xs) /\ (forall s, inner t s -> ~ In s (clean_values SpNone xs)) /\
  fit_numerical_d (Some 10) 1 IV ex_solver_all SpNone None None (tree_splits 10 t) xs [Y0; Y1; Y1; Y0; Y1; Y0] ex72_sw = Some (Ok f) /\
  f_splits f = [10; 20] /\ rounds_to 10 12 10 /\ rounds_to 10 25 20 /\ ~ rounds_to 10 25 30.
Proof.
  exists (Node 25 (Node 12 Leaf Leaf) Leaf). eexists. split; [reflexivity|]. split; [vm_compute; reflexivity|]. split; [vm_compute; lia|].
  split; [intros s [->|[[->|[[]|[]]]|[]]]; vm_compute; lia|]. split; [vm_compute; reflexivity|]. split; [reflexivity|].
  split; [apply (round_rounds 10 12); lia|]. split; [apply (round_rounds 10 25); lia|]. intros H. assert (30 = 20) by (apply (rounds_unique 10 25); [lia|exact H|apply (round_rounds 10 25); lia]). lia.
Qed.
