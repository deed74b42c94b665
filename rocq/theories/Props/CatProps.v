(** Property theorems for categorical variables (C04). *)
From Coq Require Import List ZArith Bool Arith Permutation Sorting Lia.
From Verif Require Import Model.Arr Model.Core Model.Cat Spec.CoreSpec Spec.CatSpec
  Proofs.CoreP Proofs.FitP Proofs.CoreFinal Proofs.CatP Proofs.CatFinal Props.CoreProps.
Import ListNotations.
Open Scope Z_scope.

(** C04: each training category is listed in exactly one bin, transform sends it to the value of that
    bin, nothing else is listed, and categories not seen in training get the 'unknown' value. *)
Theorem C04_category_in_one_bin : forall u d solver sp cut order prebinning xs ys sw f,
  0 < u -> length xs = length ys -> length xs = length sw -> ~ In YNaN ys -> ~ In XNaN (flat_codes sp) ->
  order_ok order -> (forall data, nondecreasing (prebinning data)) -> solver_ok solver ->
  fit_categorical 1 u d solver sp cut order prebinning xs ys sw = Some (Ok f) ->
  let bins := bin_categorical u (cf_splits f) (cf_cats f) (cf_others f) in
  (forall c, trained sp xs c -> exists i, (i < length bins)%nat /\ listed bins i c /\ (forall j, listed bins j c -> j = i) /\
     forall V k ms mm (mv : list V) un, transform1_cat bins sp k ms mm mv un (XNum c) = idx mv i) /\
  (forall i c, listed bins i c -> trained sp xs c) /\
  (forall c V k ms mm (mv : list V) un, ~ trained sp xs c -> ~ In (XNum c) (flat_codes sp) ->
     transform1_cat bins sp k ms mm mv un (XNum c) = Ok un).
Proof. exact C04_bins. Qed.
Print Assumptions C04_category_in_one_bin.

(** C03 for categorical variables: each table row holds the training weight transform sends to it. *)
Theorem C04_table_matches_transform : forall u d solver sp cut order prebinning xs ys sw f unknown,
  0 < u -> length xs = length ys -> length xs = length sw -> ~ In YNaN ys -> ~ In XNaN (flat_codes sp) ->
  sp_disjoint sp ->
  order_ok order -> (forall data, nondecreasing (prebinning data)) -> solver_ok solver ->
  fit_categorical 1 u d solver sp cut order prebinning xs ys sw = Some (Ok f) ->
  let bins := bin_categorical u (cf_splits f) (cf_cats f) (cf_others f) in
  let n_rows := (length bins + n_special sp + 1)%nat in
  let weight_to := fun nonevent k => weight_of (fun r => Bool.eqb (y_is0 (row_y r)) nonevent &&
       match transform_indices_cat bins sp Empirical Empirical unknown (row_x r) with
       | Ok z => Z.eqb z (Z.of_nat k) | Err _ => false end) (rows xs ys sw) in
  length (cf_nev f) = n_rows /\ length (cf_ev f) = n_rows /\
  forall k, (k < n_rows)%nat ->
    nth_error (cf_nev f) k = Some (weight_to true k) /\ nth_error (cf_ev f) k = Some (weight_to false k).
Proof. exact C04_table. Qed.
Print Assumptions C04_table_matches_transform.

(** The bins (other than "others") group categories consecutively by event rate. *)
Theorem C04_bins_ordered_by_rate : forall u d solver sp cut order prebinning xs ys sw f a b i j,
  0 < u -> length xs = length ys -> length xs = length sw -> ~ In YNaN ys -> ~ In XNaN (flat_codes sp) ->
  order_ok order -> (forall data, nondecreasing (prebinning data)) -> solver_ok solver ->
  fit_categorical 1 u d solver sp cut order prebinning xs ys sw = Some (Ok f) ->
  let bins := bin_categorical u (cf_splits f) (cf_cats f) (cf_others f) in
  listed bins i a -> listed bins j b -> (i < j <= length (cf_splits f))%nat ->
  (* events(a)/records(a) <= events(b)/records(b) *)
  cat_events a xs ys * cat_records b xs <= cat_events b xs ys * cat_records a xs.
Proof. exact C04_ordered. Qed.
Print Assumptions C04_bins_ordered_by_rate.

(** "others" holds exactly the clean training categories with fewer than ceil(cutoff * n_clean) records *)
Theorem C04_others_are_rare : forall u d solver sp p q order prebinning xs ys sw f c,
  0 < u -> length xs = length ys -> length xs = length sw -> ~ In YNaN ys -> ~ In XNaN (flat_codes sp) ->
  order_ok order -> (forall data, nondecreasing (prebinning data)) -> solver_ok solver ->
  fit_categorical 1 u d solver sp (Some (p, q)) order prebinning xs ys sw = Some (Ok f) ->
  let clean := filter (fun x => negb (x_isnull x) && negb (isin (flat_codes sp) x)) xs in
  In c (cf_others f) <-> trained sp xs c /\ count_of (XNum c) xs < zceil (p * Z.of_nat (length clean)) q.
Proof. exact C04_others. Qed.
Print Assumptions C04_others_are_rare.

(** ** The hypotheses are met by a concrete fit: categories 1..3 and a rare category 4. *)
Fixpoint insert_by (le : Z -> Z -> bool) (c : Z) (l : list Z) : list Z :=
  match l with [] => [c] | x :: r => if le c x then c :: l else x :: insert_by le c r end.
Definition sort_cats (xs : list xval) (ys : list yval) : list Z :=
  fold_right (insert_by (fun a b => cat_events a xs ys * cat_records b xs <=? cat_events b xs ys * cat_records a xs))
             [] (distinct (map num xs)).

Lemma insert_by_In le c l z : In z (insert_by le c l) <-> z = c \/ In z l.
Proof.
  induction l as [|x r IH]; cbn; [intuition auto|]. destruct (le c x); cbn; [intuition auto|]. rewrite IH. intuition auto.
Qed.
Lemma sort_cats_In xs ys z : In z (sort_cats xs ys) <-> In z (distinct (map num xs)).
Proof.
  unfold sort_cats. generalize (distinct (map num xs)). induction l as [|x r IH]; cbn; [tauto|].
  rewrite insert_by_In, IH. intuition auto.
Qed.
Lemma distinct_In l z : In z (distinct l) <-> In z l.
Proof.
  induction l as [|x r IH]; cbn; [tauto|]. destruct (zmem x r) eqn:E; cbn; rewrite IH; [|tauto].
  unfold zmem in E. apply existsb_exists in E as (y & Hy & E). apply Z.eqb_eq in E as ->. intuition (subst; auto).
Qed.
Lemma distinct_NoDup l : NoDup (distinct l).
Proof.
  induction l as [|x r IH]; cbn; [constructor|]. destruct (zmem x r) eqn:E; [exact IH|]. constructor; [|exact IH].
  rewrite distinct_In. intros H. assert (zmem x r = true); [|congruence].
  unfold zmem. apply existsb_exists. exists x. split; [exact H|apply Z.eqb_refl].
Qed.
Lemma cat_records_pos c xs : In (XNum c) xs -> 0 < cat_records c xs.
Proof.
  intros H. unfold cat_records, count_of. assert (In (XNum c) (filter (xval_eqb (XNum c)) xs)).
  { apply filter_In. split; [exact H|]. cbn. apply Z.eqb_refl. }
  destruct (filter (xval_eqb (XNum c)) xs); [contradiction|]. cbn [length]. lia.
Qed.
Lemma order_ok_sort_cats : order_ok sort_cats.
Proof.
  intros xs ys Hl Hn.
  assert (Hin : forall c, In c (sort_cats xs ys) <-> In (XNum c) xs).
  { intros c. rewrite sort_cats_In, distinct_In, in_map_iff. split.
    - intros (x & <- & Hx). destruct x; [contradiction|exact Hx].
    - intros H. exists (XNum c). auto. }
  split; [|split; [exact Hin|]].
  - unfold sort_cats. pose proof (distinct_NoDup (map num xs)) as H. revert H. generalize (distinct (map num xs)).
    induction l as [|x r IH]; intros H; cbn; [constructor|]. inversion H; subst.
    assert (Hx : ~ In x (fold_right (insert_by (fun a b => cat_events a xs ys * cat_records b xs <=? cat_events b xs ys * cat_records a xs)) [] r)).
    { intros Hx. apply H2. clear - Hx. induction r as [|y r IH]; cbn in *; [exact Hx|]. apply insert_by_In in Hx as [->|Hx]; auto. }
    specialize (IH H3). revert IH Hx. generalize (fold_right (insert_by (fun a b => cat_events a xs ys * cat_records b xs <=? cat_events b xs ys * cat_records a xs)) [] r).
    clear. induction l as [|y l IH]; intros Hl Hx; cbn; [now repeat constructor|].
    destruct (_ <=? _); [now constructor|]. inversion Hl; subst. constructor.
    + rewrite insert_by_In. intros [->|H]; [apply Hx; now left|contradiction].
    + apply IH; [assumption|]. intros H. apply Hx. now right.
  - assert (Hpos : forall c, In c (distinct (map num xs)) -> 0 < cat_records c xs).
    { intros c Hc. apply cat_records_pos. apply Hin. now apply sort_cats_In. }
    unfold sort_cats. revert Hpos. generalize (distinct (map num xs)) as l. set (le := fun a b => cat_events a xs ys * cat_records b xs <=? cat_events b xs ys * cat_records a xs).
    induction l as [|x r IH]; intros Hpos; cbn; [constructor|].
    assert (Hp2 : forall c, In c (fold_right (insert_by le) [] r) -> 0 < cat_records c xs).
    { intros c Hc. apply Hpos. right. clear - Hc. induction r as [|y r IH]; cbn in *; [exact Hc|]. apply insert_by_In in Hc as [->|Hc]; auto. }
    assert (Hx : 0 < cat_records x xs) by (apply Hpos; now left).
    specialize (IH (fun c Hc => Hpos c (or_intror Hc))). revert Hp2 IH. generalize (fold_right (insert_by le) [] r).
    clear - Hx. induction l as [|y l IH]; intros Hp2 Hl; cbn; [repeat constructor|].
    inversion Hl as [|? ? Hy Hl']; subst. destruct (le x y) eqn:E.
    + constructor; [|exact Hl]. unfold le in E. apply Z.leb_le in E. constructor; [exact E|].
      apply Forall_forall. intros z Hz. rewrite Forall_forall in Hy. specialize (Hy z Hz). cbv beta in Hy.
      assert (0 < cat_records y xs) by (apply Hp2; now left). assert (0 < cat_records z xs) by (apply Hp2; now right).
      nia.
    + constructor; [|apply IH; [intros c Hc; apply Hp2; now right|exact Hl']].
      apply Forall_forall. intros z Hz. apply insert_by_In in Hz as [->|Hz].
      * unfold le in E. apply Z.leb_gt in E. lia.
      * rewrite Forall_forall in Hy. now apply Hy.
Qed.

Definition ex_cx := map XNum [1;1;1; 2;2;2; 3;3;3; 4; -9] ++ [XNaN].
Definition ex_cy := [Y1;Y1;Y0; Y0;Y0;Y1; Y1;Y0;Y1; Y1; Y0; Y1].
Definition ex_csw := repeat 1 12.
Example C04_hyps_met : order_ok sort_cats /\ solver_ok ex_solver_all /\
  exists f, fit_categorical 1 2 IV ex_solver_all (SpList [XNum (-9)]) (Some (1, 5)) sort_cats (fun _ => [1])
     ex_cx ex_cy ex_csw = Some (Ok f) /\
   bin_categorical 2 (cf_splits f) (cf_cats f) (cf_others f) = [[2]; [1; 3]; [4]] /\
   cf_nev f = [2; 2; 0; 1; 0] /\ cf_ev f = [1; 4; 1; 0; 1].
Proof.
  split; [exact order_ok_sort_cats|]. split; [exact (proj1 C03_hyps_met)|].
  eexists. split; [vm_compute; reflexivity|]. repeat split.
Qed.

(** With user_splits the property fails: the last user group is pure, its samples are dropped from the
    table (no row contains them) and its category is in no bin. *)
Theorem C04_user_splits_loses_records_refuted : exists groups xs ys sw so nev ev,
  length xs = length ys /\ length xs = length sw /\ ~ In YNaN ys /\ has_dup (concat groups) = false /\
  solver_ok ex_solver_all /\
  fit_user_categorical 1 IV ex_solver_all SpNone groups xs ys sw = Some (Ok (so, nev, ev)) /\
  zsum nev + zsum ev < zsum sw /\
  exists c, In (XNum c) xs /\ In c (concat groups) /\
    forall i, ~ listed (bin_categorical_user so groups []) i c.
Proof.
  exists [[1]; [2]; [3]], (map XNum [1;1;2;2;3;3]), [Y0;Y1;Y0;Y1;Y1;Y1], (repeat 1 6), [0;1], [1;1;0;0], [1;1;0;0].
  split; [reflexivity|]. split; [reflexivity|]. split; [cbn; intuition discriminate|]. split; [reflexivity|].
  split; [exact (proj1 C03_hyps_met)|]. split; [vm_compute; reflexivity|]. split; [reflexivity|].
  exists 3. split; [cbn; tauto|]. split; [cbn; tauto|]. intros i (b & Hb & Hin).
  destruct i as [|[|[|i]]]; cbn in Hb; try discriminate; injection Hb as <-; cbn in Hin; intuition discriminate.
Qed.
Print Assumptions C04_user_splits_loses_records_refuted.

(** A single user group: every clean record disappears from the table. *)
Theorem C04_single_user_group_refuted : exists groups xs ys sw so nev ev,
  length xs = length ys /\ length xs = length sw /\ ~ In YNaN ys /\ has_dup (concat groups) = false /\
  fit_user_categorical 1 IV ex_solver_all SpNone groups xs ys sw = Some (Ok (so, nev, ev)) /\
  zsum sw = 4 /\ zsum nev = 0 /\ zsum ev = 0.
Proof.
  exists [[1; 2]], (map XNum [1;1;2;2]), [Y0;Y1;Y0;Y1], (repeat 1 4), [0], [0;0], [0;0].
  split; [reflexivity|]. split; [reflexivity|]. split; [cbn; intuition discriminate|]. split; [reflexivity|].
  split; [vm_compute; reflexivity|]. repeat split.
Qed.
Print Assumptions C04_single_user_group_refuted.
