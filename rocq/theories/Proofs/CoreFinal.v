From Coq Require Import List ZArith Bool Arith Lia ZifyBool ZifyNat Permutation Sorting.
From Verif Require Import Model.Arr Model.Core Spec.CoreSpec Proofs.ArrP Proofs.CoreP Proofs.FitP.
Import ListNotations.
Open Scope Z_scope.

(** C02 *)
Lemma unique_bin splits x : nondecreasing splits ->
  exists i, (i <= length splits)%nat /\ in_bin_i splits i x /\ forall j, in_bin_i splits j x -> j = i.
Proof.
  intros H. exists (digitize splits x). split; [apply digitize_le|]. split; [now apply digitize_in_bin|].
  intros j Hj. eapply in_bin_unique; eauto. now apply digitize_in_bin.
Qed.

Lemma indices_are_bins splits sp ms mm z k : nondecreasing splits ->
  ~ In (XNum z) (flat_codes sp) ->
  transform_indices splits sp ms mm (XNum z) = Ok k <->
  (exists i, k = Z.of_nat i /\ in_bin_i splits i z).
Proof.
  intros Hs Hn.
  assert (Hc : is_clean sp (XNum z) = true).
  { unfold is_clean. cbn. destruct sp; [reflexivity| |]; apply negb_true_iff, not_true_is_false;
      rewrite isin_In; exact Hn. }
  rewrite indices_clean by exact Hc. split.
  - intros E. injection E as <-. exists (digitize splits z). split; [reflexivity|]. now apply digitize_in_bin.
  - intros (i & -> & Hi). f_equal. f_equal. eapply in_bin_unique; eauto. now apply digitize_in_bin.
Qed.

(** metric values other than indices are looked up in the row of the bin *)
Lemma values_are_bins {V} splits sp kd ms mm (mv : list V) u z i v : nondecreasing splits ->
  ~ In (XNum z) (flat_codes sp) -> in_bin_i splits i z -> nth_error mv i = Some v ->
  transform1_num splits sp kd ms mm mv u (XNum z) = Ok v.
Proof.
  intros Hs Hn Hi Hv.
  assert (Hc : is_clean sp (XNum z) = true).
  { unfold is_clean. cbn. destruct sp; [reflexivity| |]; apply negb_true_iff, not_true_is_false;
      rewrite isin_In; exact Hn. }
  rewrite transform1_clean by exact Hc.
  assert (digitize splits z = i) by (eapply in_bin_unique; eauto; now apply digitize_in_bin).
  subst i. unfold idx. now rewrite Hv.
Qed.

(** C05 *)
Lemma counts_nonzero_witness wu splits c data i : nondecreasing splits -> (i <= length splits)%nat ->
  (forall a, In a (counts wu (digitize splits) c data (S (length splits))) -> a <> 0) ->
  exists s, In s data /\ c0 s = c /\ in_bin_i splits i (cx s).
Proof.
  intros Hs Hi H.
  assert (Hb : bin_count wu (digitize splits) c data i <> 0).
  { apply H. apply (nth_error_In _ i). unfold counts.
    rewrite nth_error_map, (nth_error_nth' _ 0%nat) by (rewrite seq_length; lia).
    rewrite seq_nth by lia. reflexivity. }
  unfold bin_count in Hb.
  destruct (filter (fun s => Bool.eqb (c0 s) c && Nat.eqb (digitize splits (cx s)) i) data) as [|s l] eqn:E.
  - cbn [map zsum] in Hb. rewrite trunc_0 in Hb. congruence.
  - assert (Hin : In s (s :: l)) by (now left). rewrite <- E in Hin. apply filter_In in Hin as [Hin Hp].
    apply andb_true_iff in Hp as [Hp1 Hp2]. exists s. split; [exact Hin|].
    split; [now apply Bool.eqb_prop|]. apply Nat.eqb_eq in Hp2. rewrite <- Hp2. now apply digitize_in_bin.
Qed.

Lemma subseq_nondecr a b : subseq a b -> nondecreasing b -> nondecreasing a.
Proof.
  intros Hsub Hs. induction Hsub as [l|x a b H IH|x a b H IH]; [constructor| |].
  - apply nondecr_inv in Hs as [Hb Hx]. constructor; [exact (IH Hb)|].
    apply Forall_forall. intros y Hy. apply Hx. eapply subseq_In; eauto.
  - apply nondecr_inv in Hs as [Hb Hx]. auto.
Qed.

Lemma compute_prebins_err fuel wu d data fixed user nref flag splits e :
  compute_prebins fuel wu d data fixed user nref flag splits = Some (Err e) -> e = ValueError /\ fixed <> None.
Proof.
  revert fixed user nref flag splits.
  induction fuel as [|fuel IH]; intros fixed user nref flag splits H; [discriminate|].
  destruct splits as [|s r]; [discriminate|].
  rewrite compute_prebins_cons in H. cbv zeta in H.
  destruct (any (remove_mask wu data (s :: r))); [|discriminate].
  destruct (refines d); [|discriminate].
  destruct fixed as [f|].
  - destruct (any (mand f _)); [injection H as <-; split; congruence|].
    apply IH in H as [-> _]. split; congruence.
  - apply IH in H as [_ H]. congruence.
Qed.


Lemma C05_refinement wu d data fixed user nref flag splits :
  nondecreasing splits ->
  exists r, compute_prebins (S (length splits)) wu d data fixed user nref flag splits = Some r /\
  match r with
  | Err e => e = ValueError /\ fixed <> None
  | Ok pb =>
      subseq (pb_splits pb) splits /\
      (d = IV \/ d = JS -> increasing (pb_splits pb) /\
        (pb_splits pb = [] \/
         forall i, (i <= length (pb_splits pb))%nat ->
           bin_has (pb_splits pb) data i true /\ bin_has (pb_splits pb) data i false)) /\
      (wu = 1 -> pb_splits pb <> [] ->
         length (pb_nev pb) = S (length (pb_splits pb)) /\ length (pb_ev pb) = S (length (pb_splits pb)) /\
         zsum (pb_nev pb) = class_weight_total data true /\
         zsum (pb_ev pb) = class_weight_total data false)
  end.
Proof.
  intros Hs.
  destruct (compute_prebins (S (length splits)) wu d data fixed user nref flag splits) as [r|] eqn:E.
  2:{ exfalso. revert E. apply compute_prebins_terminates. lia. }
  exists r. split; [reflexivity|]. destruct r as [pb|e]; [|now apply compute_prebins_err in E].
  apply compute_prebins_refined in E. split; [apply (rf_sub _ _ _ _ _ E)|]. split.
  - intros Hd. assert (Hr : refines d = true) by (destruct Hd as [->| ->]; reflexivity).
    split; [eapply refined_increasing; eauto|].
    destruct (pb_splits pb) as [|s r] eqn:Esp; [now left|right]. rewrite <- Esp. intros i Hi.
    assert (Hn : nondecreasing (pb_splits pb))
      by (eapply subseq_nondecr; [apply (rf_sub _ _ _ _ _ E)|exact Hs]).
    pose proof (rf_pure _ _ _ _ _ E Hr) as Hp.
    pose proof (rf_nev _ _ _ _ _ E) as H1. pose proof (rf_ev _ _ _ _ _ E) as H2.
    rewrite Esp in H1 at 1. rewrite Esp in H2 at 1.
    split; eapply counts_nonzero_witness; eauto; intros a Ha; apply Hp; [left; rewrite H1|right; rewrite H2];
      exact Ha.
  - intros -> Hne. pose proof (rf_nev _ _ _ _ _ E) as H1. pose proof (rf_ev _ _ _ _ _ E) as H2.
    destruct (pb_splits pb) as [|s r] eqn:Esp; [congruence|]. rewrite <- Esp in *.
    rewrite H1, H2, !length_counts, !counts_total. repeat split.
Qed.

(** C06, refinement part *)
Lemma C06_fixed_refine wu d data f user nref flag splits pb :
  length f = length splits ->
  compute_prebins (S (length splits)) wu d data (Some f) user nref flag splits = Some (Ok pb) ->
  exists f', pb_fixed pb = Some f' /\ length f' = length (pb_splits pb) /\
    forall s, In (s, true) (combine splits f) -> In (s, true) (combine (pb_splits pb) f').
Proof.
  intros Hl H. destruct (compute_prebins_fixed _ _ _ _ _ _ _ _ _ _ H) as (f' & E1 & K).
  destruct (compute_prebins_fixed_len _ _ _ _ _ _ _ _ _ _ Hl H) as (f2 & E2 & L).
  rewrite E1 in E2. injection E2 as <-. eauto.
Qed.

(** C16 *)
Fixpoint group_rows (sol : list bool) (n : list Z) (cur : list Z) : list (list Z) :=
  match sol, n with
  | b :: s, v :: r => if b then (cur ++ [v]) :: group_rows s r [] else group_rows s r (cur ++ [v])
  | _, _ => []
  end.

Lemma merge_loop_groups sol n cur : length sol = length n ->
  merge_loop (zsum cur) sol n = Some (map zsum (group_rows sol n cur)).
Proof.
  revert n cur; induction sol as [|b sol IH]; intros [|v n] cur H; cbn in H; try lia; [reflexivity|].
  cbn [merge_loop group_rows]. destruct b.
  - change 0 with (zsum []). rewrite IH by lia. cbn [option_map map]. f_equal. f_equal. rewrite zsum_app. cbn. lia.
  - rewrite <- (IH n (cur ++ [v])) by lia. f_equal. rewrite zsum_app. cbn. lia.
Qed.

Lemma group_rows_concat sol n cur : length sol = length n -> sol <> [] -> last sol false = true ->
  concat (group_rows sol n cur) = cur ++ n.
Proof.
  revert n cur; induction sol as [|b sol IH]; intros [|v n] cur H Hne Hl; cbn in H; try lia; [congruence|].
  cbn [group_rows]. destruct sol as [|b' sol].
  - cbn in Hl. subst b. destruct n; [|cbn in H; lia]. cbn. now rewrite app_nil_r.
  - assert (Hl' : last (b' :: sol) false = true) by exact Hl.
    destruct b.
    + cbn [concat]. rewrite IH by (auto; try lia; discriminate). now rewrite <- app_assoc.
    + rewrite IH by (auto; try lia; discriminate). now rewrite <- app_assoc.
Qed.

Lemma length_group_rows sol n cur : length sol = length n -> length (group_rows sol n cur) = count_true sol.
Proof.
  revert n cur; induction sol as [|b sol IH]; intros [|v n] cur H; cbn in H; try lia; [reflexivity|].
  cbn [group_rows count_true]. destruct b; cbn [length]; rewrite IH by lia; reflexivity.
Qed.

Lemma C16_bin_info sol n others specials missing :
  length sol = length n -> sol <> [] -> last sol false = true ->
  exists rows groups, bin_info_1 1 sol n others specials missing =
      Some (rows ++ match others with Some o => [o] | None => [] end ++ specials ++ [missing]) /\
    length rows = count_true sol /\ concat groups = n /\ rows = map zsum groups /\
    (forall g, In g groups -> g <> []) /\ zsum rows = zsum n.
Proof.
  intros H Hne Hl. pose proof (merge_loop_groups sol n [] H) as Hm. cbn [zsum] in Hm.
  exists (map zsum (group_rows sol n [])), (group_rows sol n []).
  pose proof (group_rows_concat sol n [] H Hne Hl) as Hc. cbn in Hc.
  split; [|split; [|split; [|split; [|split]]]].
  - unfold bin_info_1. destruct sol as [|b s]; [congruence|]. rewrite Hm. cbn [option_map].
    rewrite !map_trunc1. unfold trunc. now rewrite Z.quot_1_r.
  - rewrite map_length. now apply length_group_rows.
  - exact Hc.
  - reflexivity.
  - assert (G : forall s n cur g, In g (group_rows s n cur) -> g <> []).
    { clear. induction s as [|b s IH]; intros [|v n] cur g Hg; cbn in Hg; try tauto.
      destruct b; [destruct Hg as [<-|Hg]; [now destruct cur|]|]; eauto. }
    apply G.
  - rewrite <- Hc at 2. clear. induction (group_rows sol n []) as [|g gs IH]; cbn; [reflexivity|].
    rewrite zsum_app, IH. reflexivity.
Qed.

(** C24 *)
Lemma C24_missing {V} splits sp k ms (mv : list V) u mm :
  (mm = Empirical ->
     transform1_num splits sp k ms mm mv u XNaN = idx mv (S (length splits) + n_special sp)) /\
  (forall b v, mm = Const b v -> k = MValue ->
     transform1_num splits sp k ms mm mv u XNaN = Ok v).
Proof.
  split.
  - intros ->. reflexivity.
  - intros b v -> ->. reflexivity.
Qed.

Lemma C24_special {V} splits sp k mm (mv : list V) u ms z i :
  sp_disjoint sp -> special_index sp i (XNum z) ->
  (ms = Empirical ->
     transform1_num splits sp k ms mm mv u (XNum z) = idx mv (S (length splits) + i)) /\
  (forall b v, ms = Const b v -> k = MValue ->
     transform1_num splits sp k ms mm mv u (XNum z) = Ok v).
Proof.
  intros Hd Hi. rewrite (transform1_special splits sp k ms mm mv u z i Hd Hi). split.
  - intros ->. reflexivity.
  - intros b v -> ->. reflexivity.
Qed.

(** C25: with 'empirical' arguments indices separate the rows of the table *)

Lemma C25_empirical splits sp x k : nondecreasing splits -> sp_disjoint sp -> codes_ok sp ->
  transform_indices splits sp Empirical Empirical x = Ok (Z.of_nat k) <-> row_of splits sp x k.
Proof.
  intros Hs Hd Hc. destruct x as [|z]; cbn [row_of].
  - rewrite indices_missing. split; [intros E; injection E as E; lia|intros ->; reflexivity].
  - destruct (isin (flat_codes sp) (XNum z)) eqn:E.
    + destruct (special_index_ex _ _ E) as [i Hi]. rewrite (indices_special splits sp Empirical z i Hd Hi).
      split.
      * intros Ek. injection Ek as Ek. left. exists i. split; [exact Hi|]. lia.
      * intros [(j & Hj & ->)|[Hn _]].
        -- f_equal. f_equal. f_equal. destruct sp as [|l|d]; cbn in Hi, Hj; [tauto|lia|].
           destruct Hi as (a & Ha & Hxa), Hj as (b & Hb & Hxb). eapply Hd; eauto.
        -- apply isin_In in E. contradiction.
    + assert (Hn : ~ In (XNum z) (flat_codes sp)) by (rewrite <- isin_In, E; discriminate).
      rewrite (indices_are_bins splits sp Empirical Empirical z (Z.of_nat k) Hs Hn). split.
      * intros (i & Ei & Hi). right. split; [exact Hn|]. now replace k with i by lia.
      * intros [(i & Hi & _)|[_ Hk]]; [|eauto].
        apply special_index_in in Hi. congruence.
Qed.

(** C48 *)
Lemma C48_one_bound det lb ub sp xs ys sw o :
  (lb = None \/ ub = None) ->
  split_numerical det lb ub sp xs ys sw = Ok o ->
  forall x, In x (x_clean o) ->
    (forall l, lb = Some l -> l <= num x) /\ (forall u, ub = Some u -> num x <= u).
Proof.
  intros Hone H x Hx. unfold split_numerical in H. cbv zeta in H.
  set (o1 := match det with None => _ | Some _ => _ end) in H.
  destruct lb as [l|], ub as [u|]; cbn in H.
  - destruct Hone; discriminate.
  - injection H as <-. cbn [keep_clean x_clean] in Hx. rewrite select_map_filter in Hx.
    apply filter_In in Hx as [_ Hx]. split; intros ? E; inversion E; subst; lia.
  - injection H as <-. cbn [keep_clean x_clean] in Hx. rewrite select_map_filter in Hx.
    apply filter_In in Hx as [_ Hx]. split; intros ? E; inversion E; subst; lia.
  - injection H as <-. split; intros ? E; discriminate.
Qed.

(** C47: the detector only removes clean samples *)
Lemma C47_detector det sp xs ys sw o :
  split_numerical (Some det) None None sp xs ys sw = Ok o ->
  let o0 := split_masks sp xs ys sw in
  x_missing o = x_missing o0 /\ y_missing o = y_missing o0 /\
  x_special o = x_special o0 /\ y_special o = y_special o0 /\
  x_clean o = select (mnot (det (map num (x_clean o0)) (y_clean o0))) (x_clean o0) /\
  y_clean o = select (mnot (det (map num (x_clean o0)) (y_clean o0))) (y_clean o0) /\
  sw_clean o = select (mnot (det (map num (x_clean o0)) (y_clean o0))) (sw_clean o0).
Proof.
  intros H o0. unfold split_numerical in H. cbn in H. injection H as <-. cbn. tauto.
Qed.
