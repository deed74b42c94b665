From Coq Require Import List ZArith Bool Arith Lia Sorting QArith.
From Verif Require Import Model.Arr Model.Core Model.CP Spec.CoreSpec Spec.CPSpec Spec.CPFitSpec
  Proofs.ArrP Proofs.CoreP Proofs.FitP Proofs.CPP Proofs.CPC.
Import ListNotations.
Open Scope Z_scope.

(** ** Ranges of a list *)
Lemma sum_range_nth l s e : (s <= e)%nat -> (e < length l)%nat -> sum_range s (S e) (at0 l) = gsum l (s, e).
Proof.
  intros Hse He. unfold gsum, slice, sum_range. cbn [fst snd]. f_equal.
  apply nth_error_ext. intros i.
  destruct (Nat.lt_ge_cases i (S e - s)) as [Hi|Hi].
  - rewrite nth_error_map, (nth_error_nth' _ 0%nat) by (rewrite seq_length; lia). rewrite seq_nth by lia. cbn [option_map].
    assert (E : forall (a : list Z) k m, (k < m)%nat -> nth_error (firstn m a) k = nth_error a k).
    { clear. induction a as [|x a IH]; intros k m H; [rewrite firstn_nil; reflexivity|].
      destruct m; [lia|]. destruct k; [reflexivity|]. cbn. apply IH. lia. }
    rewrite E by lia.
    assert (E2 : forall (a : list Z) k m, nth_error (skipn m a) k = nth_error a (m + k)).
    { clear. induction a as [|x a IH]; intros k m; [rewrite skipn_nil; destruct (m + k)%nat, k; reflexivity|].
      destruct m; [reflexivity|]. cbn. apply IH. }
    rewrite E2. unfold at0. symmetry. apply nth_error_nth'. lia.
  - rewrite !(proj2 (nth_error_None _ _)); [reflexivity| |].
    + rewrite firstn_length. lia.
    + rewrite map_length, seq_length. lia.
Qed.

Lemma suffix_sums_cons : forall l acc, rev (cumsum_from acc (rev l)) =
  match l with [] => [] | x :: r => (acc + zsum (x :: r)) :: rev (cumsum_from acc (rev r)) end.
Proof.
  assert (App : forall a b acc, cumsum_from acc (a ++ b) = cumsum_from acc a ++ cumsum_from (acc + zsum a) b).
  { induction a as [|x a IH]; intros b acc; cbn [app cumsum_from zsum]; [now rewrite Z.add_0_r|].
    rewrite IH. now rewrite Z.add_assoc. }
  assert (Zr : forall a, zsum (rev a) = zsum a).
  { induction a as [|x a IH]; cbn [rev zsum]; [reflexivity|]. rewrite zsum_app, IH. cbn [zsum]. lia. }
  intros [|x r] acc; [reflexivity|]. cbn [rev]. rewrite App. cbn [cumsum_from]. rewrite rev_app_distr.
  cbn [rev app]. rewrite Zr. cbn [zsum]. f_equal. lia.
Qed.
Lemma suffix_nth l j : (j < length l)%nat -> nth j (rev (cumsum_from 0 (rev l))) 0 = zsum (skipn j l).
Proof.
  revert j. induction l as [|x r IH]; intros j Hj; [cbn in Hj; lia|].
  rewrite suffix_sums_cons. destruct j as [|j]; [cbn [nth skipn]; lia|]. cbn [nth skipn]. apply IH. cbn in Hj. lia.
Qed.
Lemma cum_mat_gsum l s e : (s <= e)%nat -> (e < length l)%nat -> cum_mat l e s = gsum l (s, e).
Proof.
  intros Hse He. unfold cum_mat, suffix_sums. rewrite suffix_nth.
  2:{ rewrite firstn_length. lia. }
  unfold gsum, slice. cbn [fst snd]. f_equal. apply skipn_firstn_comm.
Qed.

(** ** Merging along a partition *)
Lemma merge_block k : forall acc rest l, (k < length l)%nat ->
  merge_loop acc (repeat false k ++ true :: rest) l =
  option_map (cons (acc + zsum (firstn (S k) l))) (merge_loop 0 rest (skipn (S k) l)).
Proof.
  induction k as [|k IH]; intros acc rest [|v l] H; cbn in H; try lia.
  - cbn [repeat app merge_loop firstn skipn zsum]. f_equal. f_equal. lia.
  - cbn [repeat app merge_loop]. rewrite IH by lia. cbn [firstn skipn zsum].
    f_equal. f_equal. lia.
Qed.

Definition ends_vec (gs : list group) (a n : nat) : list bool :=
  map (fun i => existsb (fun g => Nat.eqb (snd g) i) gs) (seq a (n - a)).
Lemma ends_vec_cons s e n gs : (s <= e)%nat -> chain (S e) n gs ->
  ends_vec ((s, e) :: gs) s n = repeat false (e - s) ++ true :: ends_vec gs (S e) n.
Proof.
  intros Hse Hc. pose proof (chain_le _ _ _ Hc). unfold ends_vec.
  replace (n - s)%nat with ((e - s) + S (n - S e))%nat by lia. rewrite seq_app, map_app.
  replace (s + (e - s))%nat with e by lia. cbn [seq map existsb snd]. rewrite Nat.eqb_refl. cbn [orb]. f_equal.
  - assert (G : forall m b, (b + m <= e)%nat -> map (fun i => (e =? i)%nat || existsb (fun g => (snd g =? i)%nat) gs) (seq b m) = repeat false m).
    { induction m as [|m IH]; intros b Hb; [reflexivity|]. cbn [seq map repeat]. rewrite IH by lia. f_equal.
      rewrite (proj2 (Nat.eqb_neq e b)) by lia. cbn [orb]. apply not_true_iff_false. intros E.
      apply existsb_exists in E. destruct E as ([s' e'] & Hin & He). apply Nat.eqb_eq in He. cbn in He. subst e'.
      apply (chain_in _ _ _ _ _ Hc) in Hin. lia. }
    apply G. lia.
  - f_equal. apply map_ext_in. intros i Hi. apply in_seq in Hi. rewrite (proj2 (Nat.eqb_neq e i)) by lia. reflexivity.
Qed.
Lemma skipn_skipn_add {A} (l : list A) : forall i j, skipn i (skipn j l) = skipn (j + i) l.
Proof.
  induction l as [|x l IH]; intros i j; [now rewrite !skipn_nil|].
  destruct j; [reflexivity|]. cbn [skipn Nat.add]. apply IH.
Qed.
Lemma merge_chain gs : forall a n l, chain a n gs -> (n <= length l)%nat ->
  merge_loop 0 (ends_vec gs a n) (skipn a l) = Some (map (gsum l) gs).
Proof.
  intros a n l Hc. induction Hc as [n|s e n gs Hse Hc IH]; intros Hl.
  - unfold ends_vec. rewrite Nat.sub_diag. reflexivity.
  - pose proof (chain_le _ _ _ Hc). rewrite ends_vec_cons by assumption.
    rewrite merge_block by (rewrite skipn_length; lia).
    rewrite skipn_skipn_add. replace (s + S (e - s))%nat with (S e) by lia.
    rewrite IH by assumption. cbn [option_map map]. f_equal. f_equal.
    unfold gsum, slice. cbn [fst snd]. rewrite Z.add_0_l. f_equal. f_equal. lia.
Qed.
Lemma solution_ends n gs X : partition n gs -> represents n gs X ->
  solution_vector n (Solved X) = ends_vec gs 0 n.
Proof.
  intros Hp Hr. unfold ends_vec. rewrite Nat.sub_0_r. cbn [solution_vector]. apply map_ext_in. intros i Hi.
  apply in_seq in Hi. apply eq_true_iff_eq. rewrite Z.eqb_eq, (diag_end n gs X Hp Hr i) by lia.
  rewrite existsb_exists. split.
  - intros (s & Hin). exists (s, i). split; [exact Hin|]. cbn. apply Nat.eqb_refl.
  - intros ([s e] & Hin & E). apply Nat.eqb_eq in E. cbn in E. subst e. eauto.
Qed.
Lemma merge_solution n gs X l : partition n gs -> represents n gs X -> length l = n ->
  merge_loop 0 (solution_vector n (Solved X)) l = Some (map (gsum l) gs).
Proof.
  intros Hp Hr Hl. rewrite (solution_ends n gs X Hp Hr). rewrite <- (merge_chain gs 0 n l Hp) by lia. reflexivity.
Qed.
Lemma count_true_repeat_false k : count_true (repeat false k) = 0%nat.
Proof. induction k; auto. Qed.
Lemma ends_count gs : forall a n, chain a n gs -> count_true (ends_vec gs a n) = length gs.
Proof.
  intros a n Hc. induction Hc as [n|s e n gs Hse Hc IH].
  - unfold ends_vec. rewrite Nat.sub_diag. reflexivity.
  - rewrite ends_vec_cons by assumption. rewrite count_true_app, count_true_repeat_false. cbn [count_true length].
    rewrite IH. reflexivity.
Qed.
Lemma last_solution n gs X : (0 < n)%nat -> partition n gs -> represents n gs X ->
  last (solution_vector n (Solved X)) false = true /\ length (solution_vector n (Solved X)) = n /\
  count_true (solution_vector n (Solved X)) = length gs.
Proof.
  intros Hn Hp Hr. split; [|split].
  - assert (E : nth_error (solution_vector n (Solved X)) (n - 1) = Some true).
    { apply (sol_nth n gs X ltac:(lia) Hp Hr); [lia|]. exact (chain_last 0 n gs Hn Hp). }
    assert (L : length (solution_vector n (Solved X)) = n) by (cbn; now rewrite map_length, seq_length).
    rewrite <- L in E at 2. revert E. generalize (solution_vector n (Solved X)). clear.
    intros l E. induction l as [|b [|b' l] IH]; [discriminate| |].
    + cbn in E. now injection E as ->.
    + change (last (b' :: l) false = true). apply IH. cbn in *. rewrite Nat.sub_0_r. exact E.
  - cbn. now rewrite map_length, seq_length.
  - rewrite (solution_ends n gs X Hp Hr). now apply ends_count.
Qed.

Lemma nth_error_init {A} (l : list A) i : (i < length l - 1)%nat -> nth_error (init l) i = nth_error l i.
Proof.
  unfold init. revert i. induction l as [|x [|y l] IH]; intros i Hi; cbn in Hi; try lia.
  destruct i; [reflexivity|]. change (nth_error (removelast (y :: l)) i = nth_error (y :: l) i). apply IH. cbn. lia.
Qed.

(** ** From fit to groups *)
Lemma feasible_structural n D M ne ev g X : feasible n D M ne ev g X -> structural n X.
Proof. intros (H1 & H2 & H3 & _). repeat split; assumption. Qed.

Lemma finish_fit_groups wu solver sp o pb f : finish_fit wu solver sp o pb = Ok f ->
  length (pb_nev pb) = length (pb_ev pb) ->
  (pb_splits pb = [] -> pb_nev pb = []) -> (pb_splits pb <> [] -> length (pb_nev pb) = S (length (pb_splits pb))) ->
  forall X gs, let n := length (pb_nev pb) in
  (1 < n)%nat -> solver (pb_nev pb) (pb_ev pb) = solution_vector n (Solved X) ->
  partition n gs -> represents n gs X ->
  f_prebins f = pb /\ S (length (f_splits f)) = length gs /\
  clean_rows f = map (fun g => (gsum (pb_nev pb) g, gsum (pb_ev pb) g)) gs /\
  (forall i s, nth_error (pb_splits pb) i = Some s -> (exists a, In (a, i) gs) -> In s (f_splits f)).
Proof.
  intros Hf Hlen Hnil Hne X gs n Hn Hsol Hp Hr. unfold finish_fit in Hf.
  assert (Hs : pb_splits pb <> []) by (intros E; unfold n in Hn; rewrite (Hnil E) in Hn; cbn in Hn; lia).
  specialize (Hne Hs). fold n in Hf.
  assert (Hle : (n <=? 1)%nat = false) by (apply Nat.leb_gt; lia). rewrite Hle in Hf.
  rewrite Hsol in Hf. unfold optimal_splits in Hf. rewrite Hle in Hf.
  destruct (last_solution n gs X ltac:(lia) Hp Hr) as (Hlast & Hlsol & Hcnt).
  set (sol := solution_vector n (Solved X)) in *.
  assert (M1 : merge_loop 0 sol (pb_nev pb) = Some (map (gsum (pb_nev pb)) gs)) by (now apply merge_solution).
  assert (M2 : merge_loop 0 sol (pb_ev pb) = Some (map (gsum (pb_ev pb)) gs)) by (apply merge_solution; auto).
  assert (Hsn : sol <> []) by (intros E; rewrite E in Hlsol; cbn in Hlsol; lia).
  assert (E1 : match pb_splits pb with [] => [trunc wu (fst (target_info_samples (y_clean o) (sw_clean o)))] | _ => pb_nev pb end = pb_nev pb)
    by (destruct (pb_splits pb); [congruence|reflexivity]).
  assert (E2 : match pb_splits pb with [] => [trunc wu (snd (target_info_samples (y_clean o) (sw_clean o)))] | _ => pb_ev pb end = pb_ev pb)
    by (destruct (pb_splits pb); [congruence|reflexivity]).
  rewrite E1, E2 in Hf. unfold bin_info_1 in Hf.
  assert (Hsv : sol = solution_vector n (Solved X)) by reflexivity. clearbody sol. destruct sol as [|b sol0] eqn:Esol; [congruence|]. rewrite <- Esol in *.
  rewrite M1, M2 in Hf. cbn [option_map] in Hf. injection Hf as <-. cbn [f_prebins f_splits].
  assert (Hls : S (length (select (init sol) (pb_splits pb))) = length gs).
  { rewrite length_select by (rewrite length_init; lia). rewrite <- Hcnt.
    rewrite (count_true_init sol) by (auto; congruence). lia. }
  split; [reflexivity|]. split; [exact Hls|]. split.
  - unfold clean_rows. cbn [f_splits f_nev f_ev]. rewrite Hls.
    rewrite combine_firstn. rewrite !firstn_app, !map_length, Nat.sub_diag. cbn [firstn].
    rewrite !app_nil_r. rewrite !firstn_all2 by (rewrite map_length; lia).
    clear. induction gs as [|g gs IH]; [reflexivity|]. cbn [map combine]. now rewrite IH.
  - intros i s Hi Hex.
    assert (Hnth : nth_error (init sol) i = Some true).
    { assert (Hil : (i < length (pb_splits pb))%nat) by (apply nth_error_Some; congruence).
      assert (Hsi : nth_error (solution_vector n (Solved X)) i = Some true) by (apply (sol_nth n gs X ltac:(lia) Hp Hr); [lia|exact Hex]).
      rewrite <- Hsv in Hsi. rewrite nth_error_init; [exact Hsi|lia]. }
    revert Hnth Hi. generalize (init sol) (pb_splits pb). clear. intros m l. revert m i.
    induction l as [|x l IH]; intros [|b m] [|i]; cbn; try discriminate.
    + intros E1 E2. injection E1 as ->. injection E2 as ->. now left.
    + intros E1 E2. specialize (IH _ _ E1 E2). destruct b; [now right|exact IH].
Qed.

(** ** Counts are positive *)
Lemma bin_count_nonneg wu dig c data i : 0 < wu -> (forall s, In s data -> 0 <= cw s) -> 0 <= bin_count wu dig c data i.
Proof.
  intros Hw H. unfold bin_count, trunc. apply Z.quot_pos; [|exact Hw].
  assert (G : forall l, (forall s, In s l -> 0 <= cw s) -> 0 <= zsum (map cw l)).
  { induction l as [|x l IH]; intros Hl; cbn [map zsum]; [lia|]. pose proof (Hl x (or_introl eq_refl)).
    assert (0 <= zsum (map cw l)) by (apply IH; intros; apply Hl; now right). lia. }
  apply G. intros s Hs. apply filter_In in Hs. now apply H.
Qed.
Definition pos_list (l : list Z) : Prop := forall a, In a l -> 0 < a.
Lemma refined_pos wu d data splits pb : 0 < wu -> (forall s, In s data -> 0 <= cw s) -> refines d = true ->
  refined wu d data splits pb -> pos_list (pb_nev pb) /\ pos_list (pb_ev pb).
Proof.
  intros Hw Hd Hr [_ E1 E2 Hp]. specialize (Hp Hr).
  assert (N : forall c k a, In a (counts wu (digitize (pb_splits pb)) c data k) -> 0 <= a).
  { intros c k a Ha. unfold counts in Ha. apply in_map_iff in Ha. destruct Ha as (i & <- & _). now apply bin_count_nonneg. }
  split; intros a Ha.
  - assert (a <> 0) by (apply Hp; now left). rewrite E1 in Ha. destruct (pb_splits pb) eqn:Es; [destruct Ha|].
    apply N in Ha. lia.
  - assert (a <> 0) by (apply Hp; now right). rewrite E2 in Ha. destruct (pb_splits pb) eqn:Es; [destruct Ha|].
    apply N in Ha. lia.
Qed.
Lemma gsum_pos l s e : pos_list l -> (s <= e)%nat -> (e < length l)%nat -> 0 < gsum l (s, e).
Proof.
  intros Hp Hse He. unfold gsum, slice. cbn [fst snd].
  assert (G : forall m, pos_list m -> m <> [] -> 0 < zsum m).
  { induction m as [|x m IH]; intros Hm Hn; [congruence|]. cbn [zsum]. pose proof (Hm x (or_introl eq_refl)).
    destruct m as [|y m]; [cbn; lia|]. assert (0 < zsum (y :: m)) by (apply IH; [intros a Ha; apply Hm; now right|discriminate]). lia. }
  apply G.
  - intros a Ha. apply Hp.
    assert (Hf : forall (l : list Z) k a, In a (firstn k l) -> In a l).
    { clear. induction l as [|y l IH]; intros [|k] a Ha; cbn in *; try tauto. destruct Ha; [now left|right; eauto]. }
    assert (Hs : forall (l : list Z) k a, In a (skipn k l) -> In a l).
    { clear. induction l as [|y l IH]; intros [|k] a Ha; cbn in *; try tauto. right; eauto. }
    eauto.
  - intros E. apply (f_equal (@length Z)) in E. rewrite firstn_length, skipn_length in E. cbn [length] in E. lia.
Qed.

(** ** Scaled integer rates and rational rates *)
Lemma rate_mat_group M ne ev s e : (s <= e)%nat -> (e < length ne)%nat -> length ne = length ev ->
  at_group (rate_mat M ne ev) (s, e) = (M * gsum ev (s, e)) / (gsum ne (s, e) + gsum ev (s, e)).
Proof. intros H1 H2 H3. unfold at_group, rate_mat. cbn [fst snd]. rewrite !cum_mat_gsum by lia. reflexivity. Qed.

Lemma rate_mat_bounded M ne ev : 0 <= M -> length ne = length ev -> pos_list ne -> pos_list ev ->
  bounded (length ne) (rate_mat M ne ev) M.
Proof.
  intros HM Hl Hn He i j Hi Hj. unfold rate_mat. rewrite !cum_mat_gsum by lia.
  pose proof (gsum_pos ne j i Hn Hj Hi). pose proof (gsum_pos ev j i He Hj ltac:(lia)).
  split; [apply Z.div_pos; nia|]. apply Z.div_le_upper_bound; nia.
Qed.

Lemma Q_lt_div (a b c d : Z) : 0 < b -> 0 < d -> a * d < c * b ->
  (inject_Z a / inject_Z b < inject_Z c / inject_Z d)%Q.
Proof.
  intros Hb Hd H. apply Qlt_shift_div_r; [change 0%Q with (inject_Z 0); rewrite <- Zlt_Qlt; lia|].
  setoid_replace (inject_Z c / inject_Z d * inject_Z b)%Q with (inject_Z (c * b) / inject_Z d)%Q.
  2:{ rewrite inject_Z_mult. field. intros E. apply (inject_Z_injective d 0) in E. lia. }
  apply Qlt_shift_div_l; [change 0%Q with (inject_Z 0); rewrite <- Zlt_Qlt; lia|]. rewrite <- inject_Z_mult, <- Zlt_Qlt. exact H.
Qed.
Lemma Q_div_add a b c d : 0 < b -> 0 < d ->
  (inject_Z a / inject_Z b + inject_Z c / inject_Z d == inject_Z (a * d + c * b) / inject_Z (b * d))%Q.
Proof.
  intros Hb Hd. rewrite inject_Z_plus, !inject_Z_mult. field.
  split; intros E; [apply (inject_Z_injective d 0) in E|apply (inject_Z_injective b 0) in E]; lia.
Qed.

Lemma floor_le_rate M (r1 r2 : Z * Z) : 0 < M -> 0 < records r1 -> 0 < records r2 ->
  (M * snd r1) / records r1 <= (M * snd r2) / records r2 -> rate_le_res M r1 r2.
Proof.
  intros HM H1 H2 H. unfold rate_le_res, rate. fold (records r1) (records r2).
  change 1%Q with (inject_Z 1). rewrite Q_div_add by lia. apply Q_lt_div; [lia|nia|].
  pose proof (Z.mul_succ_div_gt (M * snd r1) (records r1) H1).
  pose proof (Z.mul_div_le (M * snd r2) (records r2) H2).
  set (d1 := M * snd r1 / records r1) in *. set (d2 := M * snd r2 / records r2) in *. nia.
Qed.
Lemma floor_gap_rate M k (r1 r2 : Z * Z) : 0 < M -> 0 < records r1 -> 0 < records r2 ->
  k <= (M * snd r2) / records r2 - (M * snd r1) / records r1 -> (inject_Z (k - 1) / inject_Z M < rate r2 - rate r1)%Q.
Proof.
  intros HM H1 H2 H. unfold rate. fold (records r1) (records r2).
  assert (L : (inject_Z (k - 1) / inject_Z M + inject_Z (snd r1) / inject_Z (records r1) < inject_Z (snd r2) / inject_Z (records r2))%Q).
  { rewrite Q_div_add by lia. apply Q_lt_div; [nia|lia|].
    pose proof (Z.mul_succ_div_gt (M * snd r1) (records r1) H1).
    pose proof (Z.mul_div_le (M * snd r2) (records r2) H2).
    set (d1 := M * snd r1 / records r1) in *. set (d2 := M * snd r2 / records r2) in *. nia. }
  apply (Qplus_lt_l _ _ (inject_Z (snd r1) / inject_Z (records r1))).
  eapply Qlt_le_trans; [exact L|]. ring_simplify. apply Qle_refl.
Qed.
Lemma rate_le_floor M (r1 r2 : Z * Z) : 0 <= M -> 0 < records r1 -> 0 < records r2 ->
  (rate r1 <= rate r2)%Q -> (M * snd r1) / records r1 <= (M * snd r2) / records r2.
Proof.
  intros HM H1 H2 H. unfold rate in H. fold (records r1) (records r2) in H.
  assert (G : snd r1 * records r2 <= snd r2 * records r1).
  { destruct (Z_le_gt_dec (snd r1 * records r2) (snd r2 * records r1)) as [|Hgt]; [assumption|].
    exfalso. apply (Qlt_not_le (inject_Z (snd r2) / inject_Z (records r2)) (inject_Z (snd r1) / inject_Z (records r1))); [|exact H].
    apply Q_lt_div; lia. }
  apply Z.div_le_lower_bound; [lia|].
  assert (records r1 * (M * snd r1 / records r1) <= M * snd r1) by (apply Z.mul_div_le; lia).
  destruct (Z_le_gt_dec (records r2 * (M * snd r1 / records r1)) (M * snd r2)) as [|Hgt]; [assumption|exfalso].
  set (d1 := M * snd r1 / records r1) in *. nia.
Qed.

(** ** Transfer of list properties along a map *)
Lemma all_pairs_map {A B} (F : A -> B) (P : A -> A -> Prop) (Q : B -> B -> Prop) l :
  (forall a b, In a l -> In b l -> P a b -> Q (F a) (F b)) -> all_pairs P l -> all_pairs Q (map F l).
Proof.
  unfold all_pairs. intros H HP. induction HP as [|a l Hf HP IH]; cbn [map]; constructor.
  - rewrite Forall_forall in *. intros b Hb. apply in_map_iff in Hb. destruct Hb as (x & <- & Hx).
    apply H; [now left|now right|auto].
  - apply IH. intros; apply H; auto; now right.
Qed.
Lemma all_pairs_unmap {A B} (F : A -> B) (P : A -> A -> Prop) (Q : B -> B -> Prop) l :
  (forall a b, In a l -> In b l -> Q (F a) (F b) -> P a b) -> all_pairs Q (map F l) -> all_pairs P l.
Proof.
  unfold all_pairs. induction l as [|a l IH]; intros H HQ; [constructor|]. cbn [map] in HQ. inversion HQ as [|? ? Hf Hr]; subst.
  constructor.
  - rewrite Forall_forall in *. intros b Hb. apply H; [now left|now right|]. apply Hf. now apply in_map.
  - apply IH; [intros; apply H; auto; now right|exact Hr].
Qed.
Lemma neighbours_map {A B} (F : A -> B) (P : A -> A -> Prop) (Q : B -> B -> Prop) l :
  (forall a b, In a l -> In b l -> P a b -> Q (F a) (F b)) -> neighbours P l -> neighbours Q (map F l).
Proof.
  induction l as [|a [|b l] IH]; intros H HP; cbn [map neighbours] in *; [exact I|exact I|].
  destruct HP as [H1 H2]. split; [apply H; [now left|right; now left|exact H1]|].
  apply IH; [intros; apply H; auto; now right|exact H2].
Qed.
Lemma neighbours_unmap {A B} (F : A -> B) (P : A -> A -> Prop) (Q : B -> B -> Prop) l :
  (forall a b, In a l -> In b l -> Q (F a) (F b) -> P a b) -> neighbours Q (map F l) -> neighbours P l.
Proof.
  induction l as [|a [|b l] IH]; intros H HP; cbn [map neighbours] in *; [exact I|exact I|].
  destruct HP as [H1 H2]. split; [apply H; [now left|right; now left|exact H1]|].
  apply IH; [intros; apply H; auto; now right|exact H2].
Qed.
Lemma up_down_map {A B} (F : A -> B) (P : A -> A -> Prop) (Q : B -> B -> Prop) l :
  (forall a b, In a l -> In b l -> P a b -> Q (F a) (F b)) -> up_down P l -> up_down Q (map F l).
Proof.
  intros H (l1 & l2 & -> & H1 & H2). exists (map F l1), (map F l2). split; [apply map_app|]. split.
  - eapply all_pairs_map; [|exact H1]. intros a b Ha Hb. apply H; apply in_or_app; now left.
  - eapply all_pairs_map; [|exact H2]. cbn. intros a b Ha Hb. apply H; apply in_or_app; now right.
Qed.
Lemma up_down_unmap {A B} (F : A -> B) (P : A -> A -> Prop) (Q : B -> B -> Prop) l :
  (forall a b, In a l -> In b l -> Q (F a) (F b) -> P a b) -> up_down Q (map F l) -> up_down P l.
Proof.
  intros H (m1 & m2 & E & H1 & H2).
  assert (exists l1 l2, l = l1 ++ l2 /\ m1 = map F l1 /\ m2 = map F l2) as (l1 & l2 & -> & -> & ->).
  { clear H H1 H2. revert l E. induction m1 as [|x m1 IH]; intros l E; [exists [], l; now rewrite E|].
    destruct l as [|y l]; [discriminate|]. cbn [map app] in E. injection E as E1 E2.
    destruct (IH l E2) as (l1 & l2 & -> & -> & ->). exists (y :: l1), l2. cbn. now rewrite E1. }
  exists l1, l2. split; [reflexivity|]. split.
  - eapply all_pairs_unmap; [|exact H1]. intros a b Ha Hb. apply H; apply in_or_app; now left.
  - eapply all_pairs_unmap; [|exact H2]. cbn. intros a b Ha Hb. apply H; apply in_or_app; now right.
Qed.
Lemma triples_all a n gs (P : group -> group -> group -> Prop) : chain a n gs ->
  (forall s1 e1 s2 e2 s3 e3, In (s1, e1) gs -> In (s2, e2) gs -> In (s3, e3) gs -> (e1 < e2)%nat -> (e2 < e3)%nat ->
     P (s1, e1) (s2, e2) (s3, e3)) -> all_triples P gs.
Proof.
  induction 1 as [n|s e n gs Hse Hc IH]; intros H; constructor.
  - apply (chain_pairs _ _ _ _ Hc). intros s1 e1 s2 e2 I1 I2 Hlt. pose proof (chain_in _ _ _ _ _ Hc I1).
    apply H; [now left|now right|now right|lia|lia].
  - apply IH. intros; apply H; auto; now right.
Qed.
Lemma all_triples_map {A B} (F : A -> B) (P : A -> A -> A -> Prop) (Q : B -> B -> B -> Prop) l :
  (forall a b c, In a l -> In b l -> In c l -> P a b c -> Q (F a) (F b) (F c)) -> all_triples P l -> all_triples Q (map F l).
Proof.
  intros H HP. induction HP as [|a l Hp HP IH]; cbn [map]; constructor.
  - eapply all_pairs_map; [|exact Hp]. intros b c Hb Hc. apply H; auto; [now left|now right|now right].
  - apply IH. intros; apply H; auto; now right.
Qed.
