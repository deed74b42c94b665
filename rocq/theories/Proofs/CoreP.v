From Coq Require Import List ZArith Bool Arith Lia ZifyBool ZifyNat Permutation Sorting.
From Verif Require Import Model.Arr Model.Core Spec.CoreSpec Proofs.ArrP.
Import ListNotations.
Open Scope Z_scope.

(** * Rows *)
Lemma rows_x xs ys sw : length xs = length ys -> length xs = length sw ->
  map row_x (rows xs ys sw) = xs.
Proof.
  unfold rows. revert ys sw; induction xs as [|x xs IH]; intros [|y ys] [|w sw] H1 H2; cbn in *;
    try lia; [reflexivity|]. unfold row_x at 1; cbn. f_equal. apply IH; lia.
Qed.
Lemma rows_y xs ys sw : length xs = length ys -> length xs = length sw ->
  map row_y (rows xs ys sw) = ys.
Proof.
  unfold rows. revert ys sw; induction xs as [|x xs IH]; intros [|y ys] [|w sw] H1 H2; cbn in *;
    try lia; [reflexivity|]. unfold row_y at 1; cbn. f_equal. apply IH; lia.
Qed.
Lemma rows_w xs ys sw : length xs = length ys -> length xs = length sw ->
  map row_w (rows xs ys sw) = sw.
Proof.
  unfold rows. revert ys sw; induction xs as [|x xs IH]; intros [|y ys] [|w sw] H1 H2; cbn in *;
    try lia; [reflexivity|]. unfold row_w at 1; cbn. f_equal. apply IH; lia.
Qed.

Lemma rows_map (l : list row) : rows (map row_x l) (map row_y l) (map row_w l) = l.
Proof.
  unfold rows. induction l as [|[[x y] w] l IH]; cbn; [reflexivity|].
  unfold row_x, row_y, row_w at 1; cbn. f_equal. exact IH.
Qed.

Lemma isin_In codes x : isin codes x = true <-> In x codes.
Proof.
  unfold isin. rewrite existsb_exists. split.
  - intros (c & Hc & He). destruct x, c; cbn in He; try discriminate; [exact Hc|].
    apply Z.eqb_eq in He; subst; exact Hc.
  - intros H. exists x; split; [exact H|]. destruct x; cbn; [reflexivity|apply Z.eqb_refl].
Qed.

Definition miss_b (r : row) : bool := x_isnull (row_x r) || y_isnull (row_y r).
Definition spec_b (sp : special) (r : row) : bool :=
  match sp with SpNone => false | _ => isin (flat_codes sp) (row_x r) end.

Lemma missing_mask_rows l : missing_mask (map row_x l) (map row_y l) = map miss_b l.
Proof. unfold missing_mask. now rewrite map2_map. Qed.

Definition out_of (sp : special) (l : list row) : split_out :=
  let c := filter (fun r => negb (miss_b r) && negb (spec_b sp r)) l in
  let m := filter miss_b l in
  let s := filter (spec_b sp) l in
  {| x_clean := map row_x c; y_clean := map row_y c; sw_clean := map row_w c;
     x_missing := map row_x m; y_missing := map row_y m; sw_missing := map row_w m;
     x_special := map row_x s; y_special := map row_y s; sw_special := map row_w s |}.

Lemma split_masks_rows sp l :
  split_masks sp (map row_x l) (map row_y l) (map row_w l) = out_of sp l.
Proof.
  unfold split_masks, out_of. rewrite missing_mask_rows.
  destruct sp as [|cs|d]; cbn [spec_b].
  - rewrite !mnot_map, !select_map_map.
    rewrite (filter_ext (fun r => negb (miss_b r)) (fun r => negb (miss_b r) && negb false))
      by (intros r; destruct (miss_b r); reflexivity).
    assert (Hf : filter (fun _ : row => false) l = []) by (clear; induction l; auto).
    change (spec_b SpNone) with (fun _ : row => false). rewrite Hf. reflexivity.
  - rewrite map_map, !mnot_map, mand_map, !select_map_map. reflexivity.
  - rewrite map_map, !mnot_map, mand_map, !select_map_map. reflexivity.
Qed.

Lemma split_masks_filter sp xs ys sw :
  length xs = length ys -> length xs = length sw ->
  split_masks sp xs ys sw = out_of sp (rows xs ys sw).
Proof.
  intros H1 H2. rewrite <- split_masks_rows, rows_x, rows_y, rows_w by assumption. reflexivity.
Qed.

Lemma filter_three_perm {A} (m s : A -> bool) (l : list A) :
  (forall x, In x l -> m x && s x = false) ->
  Permutation (filter (fun x => negb (m x) && negb (s x)) l ++ filter s l ++ filter m l) l.
Proof.
  induction l as [|x r IH]; cbn; intros H; [constructor|].
  assert (Hx := H x (or_introl eq_refl)).
  assert (IHr := IH (fun y Hy => H y (or_intror Hy))).
  destruct (m x), (s x); cbn in *; try discriminate.
  - rewrite app_assoc. apply Permutation_sym, Permutation_cons_app, Permutation_sym.
    rewrite <- app_assoc. exact IHr.
  - apply Permutation_sym, Permutation_cons_app, Permutation_sym. exact IHr.
  - constructor. exact IHr.
Qed.

Definition codes_ok (sp : special) : Prop := ~ In XNaN (flat_codes sp).
Definition no_nan_y (ys : list yval) : Prop := ~ In YNaN ys.

Lemma rows_In_y xs ys sw r : In r (rows xs ys sw) -> In (row_y r) ys.
Proof.
  destruct r as [[x y] w]. unfold rows, row_y; cbn. intros H.
  apply in_combine_l in H. now apply in_combine_r in H.
Qed.

Lemma flat_codes_spec sp r : spec_b sp r = isin (flat_codes sp) (row_x r).
Proof. destruct sp; reflexivity. Qed.

Lemma C01_filter xs ys sw sp :
  length xs = length ys -> length xs = length sw -> no_nan_y ys ->
  let o := split_masks sp xs ys sw in
  let R := rows xs ys sw in
  rows (x_missing o) (y_missing o) (sw_missing o) = filter (fun r => x_isnull (row_x r)) R /\
  rows (x_special o) (y_special o) (sw_special o)
    = filter (fun r => isin (flat_codes sp) (row_x r)) R /\
  rows (x_clean o) (y_clean o) (sw_clean o)
    = filter (fun r => negb (x_isnull (row_x r)) && negb (isin (flat_codes sp) (row_x r))) R.
Proof.
  intros H1 H2 Hy o R. subst o. rewrite split_masks_filter by assumption. fold R.
  unfold out_of; cbn [x_clean y_clean sw_clean x_missing y_missing sw_missing x_special y_special sw_special]. rewrite !rows_map.
  assert (Hm : forall r, In r R -> miss_b r = x_isnull (row_x r)).
  { intros r Hr. apply rows_In_y in Hr. unfold miss_b.
    destruct (row_y r); cbn; rewrite ?orb_false_r; try reflexivity. contradiction. }
  repeat split.
  - apply filter_ext_in. exact Hm.
  - apply filter_ext_in. intros r _. apply flat_codes_spec.
  - apply filter_ext_in. intros r Hr. now rewrite Hm, flat_codes_spec.
Qed.

Lemma C01_partition xs ys sw sp :
  length xs = length ys -> length xs = length sw -> no_nan_y ys -> codes_ok sp ->
  let o := split_masks sp xs ys sw in
  let clean := rows (x_clean o) (y_clean o) (sw_clean o) in
  let missing := rows (x_missing o) (y_missing o) (sw_missing o) in
  let specl := rows (x_special o) (y_special o) (sw_special o) in
  subseq clean (rows xs ys sw) /\ subseq missing (rows xs ys sw) /\ subseq specl (rows xs ys sw) /\
  Permutation (clean ++ specl ++ missing) (rows xs ys sw) /\
  (forall r, In r missing <-> In r (rows xs ys sw) /\ is_missing_row r) /\
  (forall r, In r specl <-> In r (rows xs ys sw) /\ is_special_row (flat_codes sp) r) /\
  (forall r, In r clean <-> In r (rows xs ys sw) /\ ~ is_missing_row r
                           /\ ~ is_special_row (flat_codes sp) r).
Proof.
  intros H1 H2 Hy Hc o clean missing specl.
  destruct (C01_filter xs ys sw sp H1 H2 Hy) as (Em & Es & Ec).
  fold o in Em, Es, Ec. fold missing in Em. fold specl in Es. fold clean in Ec.
  rewrite Em, Es, Ec. set (R := rows xs ys sw).
  assert (Hsub : forall (p : row -> bool) l, subseq (filter p l) l).
  { intros p l; induction l as [|r l IH]; cbn; [constructor|].
    destruct (p r); constructor; exact IH. }
  repeat split; try apply Hsub.
  - apply (filter_three_perm (fun r => x_isnull (row_x r)) (fun r => isin (flat_codes sp) (row_x r))).
    intros r _. destruct (x_isnull (row_x r)) eqn:E; [|reflexivity]. cbn.
    destruct (row_x r); [|discriminate]. apply not_true_is_false. rewrite isin_In. exact Hc.
  - now apply filter_In in H.
  - apply filter_In in H. destruct H as [_ H]. unfold is_missing_row. now destruct (row_x r).
  - intros [Hr Hm]. apply filter_In; split; [exact Hr|]. unfold is_missing_row in Hm. now rewrite Hm.
  - now apply filter_In in H.
  - apply filter_In in H. destruct H as [_ H]. now apply isin_In.
  - intros [Hr Hm]. apply filter_In; split; [exact Hr|]. now apply isin_In.
  - now apply filter_In in H.
  - apply filter_In in H. destruct H as [_ H]. intros Hm. unfold is_missing_row in Hm.
    rewrite Hm in H; discriminate.
  - apply filter_In in H. destruct H as [_ H]. intros Hm. apply isin_In in Hm. rewrite Hm in H.
    now rewrite andb_false_r in H.
  - intros (Hr & Hm & Hs). apply filter_In; split; [exact Hr|].
    apply andb_true_iff; split; apply negb_true_iff.
    + destruct (row_x r) eqn:E; [|reflexivity]. now elim Hm.
    + apply not_true_is_false. rewrite isin_In. exact Hs.
Qed.

(** * Digitize *)
Lemma digitize_le splits x : (digitize splits x <= length splits)%nat.
Proof. induction splits as [|s r IH]; cbn; [lia|]. destruct (s <=? x); lia. Qed.

Lemma nondecr_inv s r : nondecreasing (s :: r) -> nondecreasing r /\ forall y, In y r -> s <= y.
Proof. intros H. inversion H; subst. split; [assumption|]. now apply Forall_forall. Qed.
Lemma incr_inv s r : increasing (s :: r) -> increasing r /\ forall y, In y r -> s < y.
Proof. intros H. inversion H; subst. split; [assumption|]. now apply Forall_forall. Qed.
Lemma incr_nondecr l : increasing l -> nondecreasing l.
Proof.
  induction 1 as [|s r Hr IH Hf]; constructor; [assumption|].
  eapply Forall_impl; [|exact Hf]. cbn; intros; lia.
Qed.

Lemma digitize_all_gt splits x : (forall y, In y splits -> x < y) -> digitize splits x = 0%nat.
Proof.
  destruct splits as [|s r]; [reflexivity|]. intros H; cbn.
  specialize (H s (or_introl eq_refl)). destruct (Z.leb_spec s x); lia.
Qed.

(** characterisation by the number of splits <= x *)
Lemma digitize_count splits x : nondecreasing splits ->
  digitize splits x = length (filter (fun s => s <=? x) splits).
Proof.
  induction splits as [|s r IH]; intros H; [reflexivity|].
  apply nondecr_inv in H as [Hr Hs]. cbn. destruct (Z.leb_spec s x) as [Hle|Hgt]; cbn.
  - now rewrite IH.
  - clear IH Hr. induction r as [|t r IH]; [reflexivity|]. cbn.
    assert (s <= t) by (apply Hs; now left).
    destruct (Z.leb_spec t x); [lia|]. apply IH. intros y Hy; apply Hs; now right.
Qed.

Lemma nth_error_edges_0 splits : nth_error (edges splits) 0 = Some None.
Proof. reflexivity. Qed.
Lemma nth_error_edges_S splits i : (i <= length splits)%nat ->
  nth_error (edges splits) (S i) = Some (nth_error splits i).
Proof.
  intros H. unfold edges. cbn [nth_error].
  destruct (Nat.eq_dec i (length splits)) as [->|Hne].
  - rewrite nth_error_app2 by (rewrite map_length; lia). rewrite map_length, Nat.sub_diag. cbn.
    f_equal. symmetry. apply nth_error_None. lia.
  - rewrite nth_error_app1 by (rewrite map_length; lia).
    rewrite nth_error_map. destruct (nth_error splits i) eqn:E; [reflexivity|].
    apply nth_error_None in E; lia.
Qed.

(** in_bin_i in terms of nth_error *)
Lemma in_bin_i_iff splits i x : (i <= length splits)%nat ->
  in_bin_i splits i x <->
  (match i with O => True | S j => match nth_error splits j with Some a => a <= x | None => True end end
   /\ match nth_error splits i with Some b => x < b | None => True end).
Proof.
  intros H. unfold in_bin_i. rewrite (nth_error_edges_S splits i H).
  destruct i as [|j].
  - rewrite nth_error_edges_0. unfold in_bin. tauto.
  - rewrite (nth_error_edges_S splits j) by lia. unfold in_bin. tauto.
Qed.

Lemma digitize_in_bin splits x : nondecreasing splits ->
  in_bin_i splits (digitize splits x) x.
Proof.
  intros H. apply in_bin_i_iff; [apply digitize_le|]. split.
  - induction splits as [|s r IH]; cbn; [exact I|].
    apply nondecr_inv in H as [Hr Hs]. specialize (IH Hr).
    destruct (Z.leb_spec s x) as [Hle|Hgt]; [|exact I].
    destruct (digitize r x) as [|j] eqn:E; [exact Hle|]. cbn. exact IH.
  - induction splits as [|s r IH]; cbn; [exact I|].
    apply nondecr_inv in H as [Hr Hs]. specialize (IH Hr).
    destruct (Z.leb_spec s x) as [Hle|Hgt]; cbn; [exact IH|exact Hgt].
Qed.

Lemma in_bin_i_lt splits i x : in_bin_i splits i x -> (i <= length splits)%nat.
Proof.
  unfold in_bin_i. destruct (nth_error (edges splits) (S i)) eqn:E.
  - intros _. assert (S i < length (edges splits))%nat by (apply nth_error_Some; congruence).
    unfold edges in H. cbn in H. rewrite app_length, map_length in H. cbn in H. lia.
  - destruct (nth_error (edges splits) i); tauto.
Qed.

Lemma nondecr_nth splits i j a b : nondecreasing splits -> (i <= j)%nat ->
  nth_error splits i = Some a -> nth_error splits j = Some b -> a <= b.
Proof.
  revert i j; induction splits as [|s r IH]; intros i j H Hij Ha Hb; [destruct i; discriminate|].
  apply nondecr_inv in H as [Hr Hs]. destruct i as [|i], j as [|j]; cbn in *; try lia.
  - injection Ha as ->. injection Hb as ->. lia.
  - injection Ha as ->. apply Hs. eapply nth_error_In; eauto.
  - eapply (IH i j); eauto; lia.
Qed.

Lemma in_bin_unique splits i j x : nondecreasing splits ->
  in_bin_i splits i x -> in_bin_i splits j x -> i = j.
Proof.
  intros Hs.
  assert (W : forall i j, (i < j)%nat -> in_bin_i splits i x -> in_bin_i splits j x -> False).
  { clear i j. intros i j Hij Hi Hj.
    pose proof (in_bin_i_lt _ _ _ Hi) as Li. pose proof (in_bin_i_lt _ _ _ Hj) as Lj.
    apply in_bin_i_iff in Hi; [|exact Li]. apply in_bin_i_iff in Hj; [|exact Lj].
    destruct Hi as [_ Hi], Hj as [Hj _]. destruct j as [|j]; [lia|].
    destruct (nth_error splits j) as [b|] eqn:Eb; [|apply nth_error_None in Eb; lia].
    destruct (nth_error splits i) as [a|] eqn:Ea; [|apply nth_error_None in Ea; lia].
    assert (a <= b) by (eapply (nondecr_nth splits i j); eauto; lia). lia. }
  intros Hi Hj. destruct (Nat.lt_trichotomy i j) as [H|[H|H]]; [|exact H|];
    exfalso; eauto.
Qed.

(** * Rank of a value among a selection of the splits *)
Lemma select_nondecr m l : nondecreasing l -> nondecreasing (select m l).
Proof.
  revert m; induction l as [|s r IH]; intros [|b m] H; cbn; try constructor.
  apply nondecr_inv in H as [Hr Hs]. destruct b; [|now apply IH].
  constructor; [now apply IH|]. apply Forall_forall. intros y Hy. apply Hs. eapply select_In; eauto.
Qed.
Lemma select_incr m l : increasing l -> increasing (select m l).
Proof.
  revert m; induction l as [|s r IH]; intros [|b m] H; cbn; try constructor.
  apply incr_inv in H as [Hr Hs]. destruct b; [|now apply IH].
  constructor; [now apply IH|]. apply Forall_forall. intros y Hy. apply Hs. eapply select_In; eauto.
Qed.

Lemma digitize_select m splits x : nondecreasing splits -> length m = length splits ->
  digitize (select m splits) x = count_true (firstn (digitize splits x) m).
Proof.
  revert m; induction splits as [|s r IH]; intros [|b m] H Hl; cbn in Hl; try lia; [reflexivity|].
  pose proof H as H0. apply nondecr_inv in H as [Hr Hs]. cbn [digitize].
  destruct (Z.leb_spec s x) as [Hle|Hgt].
  - cbn [firstn count_true select]. destruct b; cbn.
    + destruct (Z.leb_spec s x); [|lia]. f_equal. apply IH; [exact Hr|lia].
    + apply IH; [exact Hr|lia].
  - cbn. apply digitize_all_gt. intros y Hy.
    assert (Hin : In y (s :: r)) by (eapply (select_In (b :: m)); exact Hy).
    destruct Hin as [->|Hin]; [lia|]. specialize (Hs y Hin). lia.
Qed.

Lemma select_subseq {A} m (l : list A) : subseq (select m l) l.
Proof.
  revert m; induction l as [|x r IH]; intros [|b m]; cbn; try apply subseq_nil.
  destruct b; [apply subseq_keep|apply subseq_drop]; apply IH.
Qed.
Lemma subseq_refl {A} (l : list A) : subseq l l.
Proof. induction l; constructor; assumption. Qed.
Lemma subseq_trans {A} (a b c : list A) : subseq a b -> subseq b c -> subseq a c.
Proof.
  intros H1 H2; revert a H1; induction H2 as [l|x b c H IH|x b c H IH]; intros a H1.
  - inversion H1; constructor.
  - inversion H1; subst; [constructor|constructor; auto|apply subseq_drop; auto].
  - apply subseq_drop. auto.
Qed.
Lemma subseq_In {A} (a b : list A) x : subseq a b -> In x a -> In x b.
Proof. induction 1 as [l|y a b H IH|y a b H IH]; cbn; intuition. Qed.

(** * Prebin refinement *)
Lemma length_counts wu dig c data n : length (counts wu dig c data n) = n.
Proof. unfold counts. now rewrite map_length, seq_length. Qed.

Lemma length_mask_splits m : (2 <= length m)%nat -> length (mask_splits m) = (length m - 1)%nat.
Proof.
  induction m as [|a [|b [|c r]] IH]; intros H; cbn [length] in *; try lia.
  - reflexivity.
  - change (mask_splits (a :: b :: c :: r)) with (a :: mask_splits (b :: c :: r)).
    cbn [length]. rewrite IH by lia. lia.
Qed.

Lemma any_mask_splits m : (2 <= length m)%nat -> any m = true -> In true (mask_splits m).
Proof.
  induction m as [|a [|b [|c r]] IH]; intros H Ha; cbn [length] in *; try lia.
  - cbn in *. left. now rewrite orb_false_r in Ha.
  - change (mask_splits (a :: b :: c :: r)) with (a :: mask_splits (b :: c :: r)).
    destruct a; [now left|]. right. apply IH; [lia|]. exact Ha.
Qed.

Lemma select_mnot_shorter {A} m (l : list A) : length m = length l -> In true m ->
  (length (select (mnot m) l) < length l)%nat.
Proof.
  revert l; induction m as [|b m IH]; intros [|x r] Hl Hin; cbn in *; try lia; try tauto.
  assert (Hle : (length (select (mnot m) r) <= length r)%nat).
  { rewrite length_select by (rewrite length_mnot; lia).
    pose proof (count_true_le (mnot m)). rewrite length_mnot in *. lia. }
  destruct b; cbn; [fold (mnot m); lia|].
  destruct Hin as [Hc|Hin]; [discriminate|]. fold (mnot m). specialize (IH r ltac:(lia) Hin). lia.
Qed.

Definition remove_mask (wu : Z) (data : list csample) (splits : list Z) : list bool :=
  map2 (fun a b => (a =? 0) || (b =? 0))
    (counts wu (digitize splits) true data (S (length splits)))
    (counts wu (digitize splits) false data (S (length splits))).

Lemma length_remove_mask wu data splits : length (remove_mask wu data splits) = S (length splits).
Proof. unfold remove_mask. rewrite length_map2; rewrite !length_counts; reflexivity. Qed.

Lemma compute_prebins_cons fuel wu d data fixed user nref flag s r :
  compute_prebins (S fuel) wu d data fixed user nref flag (s :: r) =
  let splits := s :: r in
  let rm := remove_mask wu data splits in
  let ms := mask_splits rm in
  let fin := fun fl => Some (Ok {| pb_splits := splits;
                 pb_nev := counts wu (digitize splits) true data (S (length splits));
                 pb_ev := counts wu (digitize splits) false data (S (length splits));
                 pb_fixed := fixed; pb_user := user; pb_nref := nref; pb_flag := fl |}) in
  if any rm then
    if refines d then
      match fixed with
      | Some f => if any (mand f ms) then Some (Err ValueError)
                  else compute_prebins fuel wu d data (Some (select (mnot ms) f))
                     (option_map (select (mnot ms)) user) (S nref) flag (select (mnot ms) splits)
      | None => compute_prebins fuel wu d data None user (S nref) flag (select (mnot ms) splits)
      end
    else fin true
  else fin flag.
Proof. reflexivity. Qed.

Lemma ms_facts wu data (s : Z) r :
  length (mask_splits (remove_mask wu data (s :: r))) = length (s :: r).
Proof.
  rewrite length_mask_splits; rewrite length_remove_mask; cbn; lia.
Qed.

Lemma refinement_step_shorter wu data s r :
  any (remove_mask wu data (s :: r)) = true ->
  (length (select (mnot (mask_splits (remove_mask wu data (s :: r)))) (s :: r)) < length (s :: r))%nat.
Proof.
  intros H. apply select_mnot_shorter; [apply ms_facts|].
  apply any_mask_splits; [rewrite length_remove_mask; cbn; lia|exact H].
Qed.

Lemma compute_prebins_terminates fuel wu d data fixed user nref flag splits :
  (length splits < fuel)%nat ->
  compute_prebins fuel wu d data fixed user nref flag splits <> None.
Proof.
  revert fixed user nref flag splits.
  induction fuel as [|fuel IH]; intros fixed user nref flag splits H; [lia|].
  destruct splits as [|s r]; [discriminate|].
  rewrite compute_prebins_cons. cbv zeta.
  destruct (any (remove_mask wu data (s :: r))) eqn:Ea; [|discriminate].
  destruct (refines d); [|discriminate].
  pose proof (refinement_step_shorter wu data s r Ea) as Hsh.
  destruct fixed as [f|].
  - destruct (any (mand _ _)); [discriminate|]. apply IH. cbn [length] in *. lia.
  - apply IH. cbn [length] in *. lia.
Qed.

(** What a successful refinement guarantees. *)
Record refined (wu : Z) (d : divergence) (data : list csample) (splits0 : list Z) (pb : prebins) : Prop := {
  rf_sub : subseq (pb_splits pb) splits0;
  rf_nev : pb_nev pb = match pb_splits pb with [] => [] | _ =>
             counts wu (digitize (pb_splits pb)) true data (S (length (pb_splits pb))) end;
  rf_ev : pb_ev pb = match pb_splits pb with [] => [] | _ =>
             counts wu (digitize (pb_splits pb)) false data (S (length (pb_splits pb))) end;
  rf_pure : refines d = true -> forall a, In a (pb_nev pb) \/ In a (pb_ev pb) -> a <> 0 }.

Lemma remove_mask_false wu data splits : any (remove_mask wu data splits) = false ->
  forall a, In a (counts wu (digitize splits) true data (S (length splits))) \/
            In a (counts wu (digitize splits) false data (S (length splits))) -> a <> 0.
Proof.
  intros H a Ha. rewrite any_false_iff in H. unfold remove_mask in H.
  assert (G : forall i x y, nth_error (counts wu (digitize splits) true data (S (length splits))) i = Some x ->
     nth_error (counts wu (digitize splits) false data (S (length splits))) i = Some y ->
     x <> 0 /\ y <> 0).
  { intros i x y Hx Hy.
    assert (Hb : (x =? 0) || (y =? 0) = false).
    { apply H. apply (nth_error_In _ i). rewrite map2_nth_error, Hx, Hy. reflexivity. }
    lia. }
  assert (L : forall i x c, nth_error (counts wu (digitize splits) c data (S (length splits))) i = Some x ->
      exists y, nth_error (counts wu (digitize splits) (negb c) data (S (length splits))) i = Some y).
  { intros i x c Hx. destruct (nth_error (counts wu (digitize splits) (negb c) data (S (length splits))) i) eqn:E; eauto.
    apply nth_error_None in E. rewrite length_counts in E.
    assert (i < length (counts wu (digitize splits) c data (S (length splits))))%nat
      by (apply nth_error_Some; congruence).
    rewrite length_counts in *. lia. }
  destruct Ha as [Ha|Ha]; apply In_nth_error in Ha as [i Hi]; destruct (L _ _ _ Hi) as [y Hy]; cbn in Hy.
  - apply (G i a y Hi Hy).
  - apply (G i y a Hy Hi).
Qed.

Lemma compute_prebins_refined fuel wu d data fixed user nref flag splits pb :
  compute_prebins fuel wu d data fixed user nref flag splits = Some (Ok pb) ->
  refined wu d data splits pb.
Proof.
  revert fixed user nref flag splits.
  induction fuel as [|fuel IH]; intros fixed user nref flag splits H; [discriminate|].
  destruct splits as [|s r].
  - injection H as <-. constructor; cbn; try reflexivity; [constructor|]. intros _ a [[]|[]].
  - rewrite compute_prebins_cons in H. cbv zeta in H.
    destruct (any (remove_mask wu data (s :: r))) eqn:Ea.
    + destruct (refines d) eqn:Er.
      * assert (Hrec : exists fx us, compute_prebins fuel wu d data fx us (S nref) flag
                  (select (mnot (mask_splits (remove_mask wu data (s :: r)))) (s :: r)) = Some (Ok pb)).
        { destruct fixed as [f|].
          - destruct (any (mand f _)); [discriminate|]. eauto.
          - eauto. }
        destruct Hrec as (fx & us & Hrec). apply IH in Hrec. destruct Hrec as [H1 H2 H3 H4].
        constructor; try assumption. eapply subseq_trans; [exact H1|]. apply select_subseq.
      * injection H as <-. constructor; cbn [pb_splits pb_nev pb_ev]; try reflexivity;
          [apply subseq_refl|]. intros Hc; congruence.
    + injection H as <-. constructor; cbn [pb_splits pb_nev pb_ev]; try reflexivity;
        [apply subseq_refl|]. intros _ a. exact (remove_mask_false wu data (s :: r) Ea a).
Qed.

Lemma trunc_0 wu : trunc wu 0 = 0.
Proof. unfold trunc. destruct wu; reflexivity. Qed.

(** duplicate splits give an empty prebin *)
Lemma refined_increasing wu d data splits0 pb :
  refined wu d data splits0 pb -> refines d = true -> nondecreasing splits0 ->
  increasing (pb_splits pb).
Proof.
  intros [Hsub Hnev _ Hpure] Hr Hs. specialize (Hpure Hr).
  assert (Hnd : nondecreasing (pb_splits pb)).
  { clear -Hsub Hs. induction Hsub as [l|x a b H IH|x a b H IH]; [constructor| |].
    - apply nondecr_inv in Hs as [Hb Hx]. constructor; [exact (IH Hb)|].
      apply Forall_forall. intros y Hy. apply Hx. eapply subseq_In; eauto.
    - apply nondecr_inv in Hs as [Hb Hx]. auto. }
  assert (Hne : forall i a b, nth_error (pb_splits pb) i = Some a ->
                nth_error (pb_splits pb) (S i) = Some b -> a < b).
  { intros i a b Ha Hb.
    assert (a <= b) by (eapply (nondecr_nth _ i (S i)); eauto).
    destruct (Z.eq_dec a b) as [->|]; [exfalso|lia].
    assert (Hi : (S i < length (pb_splits pb))%nat) by (apply nth_error_Some; congruence).
    apply (Hpure 0); [|reflexivity]. left. rewrite Hnev.
    destruct (pb_splits pb) as [|s r] eqn:E; [cbn in Hi; lia|]. rewrite <- E in *.
    apply (nth_error_In _ (S i)). unfold counts. rewrite nth_error_map.
    rewrite (nth_error_nth' _ 0%nat) by (rewrite seq_length; lia).
    rewrite seq_nth by lia. cbn [option_map]. f_equal. unfold bin_count.
    replace (filter _ data) with (@nil csample); [apply trunc_0|].
    symmetry. clear -Hnd Ha Hb Hi. induction data as [|c data IH]; [reflexivity|]. cbn [filter].
    destruct (Bool.eqb (c0 c) true); cbn [andb]; [|exact IH].
    destruct (Nat.eqb_spec (digitize (pb_splits pb) (cx c)) (0 + S i)); [|exact IH].
    pose proof (digitize_in_bin (pb_splits pb) (cx c) Hnd) as Hin. rewrite e in Hin.
    cbn [Nat.add] in Hin. apply in_bin_i_iff in Hin; [|lia]. rewrite Ha, Hb in Hin. lia. }
  clear -Hnd Hne. induction (pb_splits pb) as [|s r IH]; [constructor|].
  apply nondecr_inv in Hnd as [Hr Hs]. constructor.
  - apply IH; [exact Hr|]. intros i a b Ha Hb. apply (Hne (S i)); assumption.
  - apply Forall_forall. intros y Hy. destruct r as [|t r]; [destruct Hy|].
    assert (s < t) by (apply (Hne 0%nat); reflexivity).
    destruct Hy as [->|Hy]; [assumption|]. apply nondecr_inv in Hr as [_ Ht]. specialize (Ht y Hy). lia.
Qed.

(** total counts *)
Lemma counts_total c splits data :
  zsum (counts 1 (digitize splits) c data (S (length splits)))
  = zsum (map cw (filter (fun s => Bool.eqb (c0 s) c) data)).
Proof.
  unfold counts, bin_count.
  rewrite <- (zsum_by_key (fun s => digitize splits (cx s)) cw (S (length splits))).
  - apply zsum_map_ext. intros i _. unfold trunc. rewrite Z.quot_1_r, filter_filter. reflexivity.
  - intros x _. pose proof (digitize_le splits (cx x)). lia.
Qed.

(** fixed splits survive *)
Lemma combine_select {A B} m (a : list A) (b : list B) :
  combine (select m a) (select m b) = select m (combine a b).
Proof.
  revert a b; induction m as [|x m IH]; intros [|y a] [|z b]; cbn; try reflexivity.
  - destruct x; [reflexivity|]. destruct (select m a); reflexivity.
  - destruct x; cbn; now rewrite IH.
Qed.

Lemma fixed_survive_step f (ms : list bool) (splits : list Z) s :
  length ms = length splits -> any (mand f ms) = false ->
  In (s, true) (combine splits f) -> In (s, true) (combine (select (mnot ms) splits) (select (mnot ms) f)).
Proof.
  intros Hl Ha Hin. rewrite combine_select. rewrite any_false_iff in Ha.
  revert f splits Hl Ha Hin. induction ms as [|b ms IH]; intros [|g f] [|t splits] Hl Ha Hin; cbn in *;
    try lia; try tauto.
  assert (IH' : In (s, true) (combine splits f) -> In (s, true) (select (map negb ms) (combine splits f))).
  { intros Hi. apply IH; [lia| |exact Hi]. intros x Hx; apply Ha; now right. }
  destruct Hin as [Hin|Hin].
  - injection Hin as -> ->. assert (Hb : true && b = false) by (apply Ha; now left).
    cbn in Hb; subst b. cbn. now left.
  - destruct b; cbn; [now apply IH'|right; now apply IH'].
Qed.

Lemma compute_prebins_fixed fuel wu d data f user nref flag splits pb :
  compute_prebins fuel wu d data (Some f) user nref flag splits = Some (Ok pb) ->
  exists f', pb_fixed pb = Some f' /\
    forall s, In (s, true) (combine splits f) -> In (s, true) (combine (pb_splits pb) f').
Proof.
  revert f user nref flag splits.
  induction fuel as [|fuel IH]; intros f user nref flag splits H; [discriminate|].
  destruct splits as [|s r].
  - injection H as <-. exists f; cbn. split; [reflexivity|]. tauto.
  - rewrite compute_prebins_cons in H. cbv zeta in H.
    destruct (any (remove_mask wu data (s :: r))) eqn:Ea.
    + destruct (refines d) eqn:Er.
      * destruct (any (mand f _)) eqn:Em; [discriminate|].
        apply IH in H as (f' & Hf' & Hk). exists f'. split; [exact Hf'|].
        intros t Ht. apply Hk. apply fixed_survive_step; [apply ms_facts|exact Em|exact Ht].
      * injection H as <-. cbn [pb_fixed pb_splits]. eauto.
    + injection H as <-. cbn [pb_fixed pb_splits]. eauto.
Qed.
Lemma compute_prebins_fixed_len fuel wu d data f user nref flag splits pb :
  length f = length splits ->
  compute_prebins fuel wu d data (Some f) user nref flag splits = Some (Ok pb) ->
  exists f', pb_fixed pb = Some f' /\ length f' = length (pb_splits pb).
Proof.
  revert f user nref flag splits.
  induction fuel as [|fuel IH]; intros f user nref flag splits Hl H; [discriminate|].
  destruct splits as [|s r].
  - injection H as <-. exists f; cbn. split; [reflexivity|]. exact Hl.
  - rewrite compute_prebins_cons in H. cbv zeta in H.
    destruct (any (remove_mask wu data (s :: r))) eqn:Ea.
    + destruct (refines d) eqn:Er.
      * destruct (any (mand f _)) eqn:Em; [discriminate|].
        apply IH in H as (f' & Hf' & Hk); [eauto|].
        rewrite !length_select; rewrite ?length_mnot, ?ms_facts; auto.
      * injection H as <-. cbn [pb_fixed pb_splits]. eauto.
    + injection H as <-. cbn [pb_fixed pb_splits]. eauto.
Qed.
