(** The theorems about a fitted 2D binning, from the tiling behind it (shared by the strategies "grid" and "cart"). *)
From Coq Require Import List ZArith QArith Lia Bool Arith Permutation Sorting.
From Verif Require Import Model.Arr Model.Core Model.TwoD Spec.CoreSpec Spec.TwoDSpec Proofs.ArrP Proofs.CoreP Proofs.TwoDP Proofs.TwoDQ Proofs.TwoDR
  Proofs.TwoDS Proofs.TwoDT Proofs.TwoDU Proofs.TwoDV.
Import ListNotations.
Open Scope nat_scope.

Section G.
Variables (ax ay : axis) (cx cy : option (list xval)) (pre_x pre_y : list sample2 -> list Z) (g : size_cfg) (c : cfg2)
  (data : list sample2) (f : fitted2) (srs : list rect).
Let clean := filter (clean2 cx cy) data.
Hypothesis HF : fit_of (pre_x clean) (pre_y clean) (matrix ax ay (pre_x clean) (pre_y clean) false clean) (matrix ax ay (pre_x clean) (pre_y clean) true clean)
  srs (target_info2 (filter (special2 cx cy) data)) (target_info2 (filter missing2 data)) f.
Hypothesis HT : tiling (S (length (pre_y clean))) (S (length (pre_x clean))) srs.
Lemma G_bins_partition_plane  : forall ms mm x y, (forall l, nondecreasing (pre_x l)) -> (forall l, nondecreasing (pre_y l)) ->
  known ax x -> known ay y -> no_code cx x -> no_code cy y ->
  exists b, b < length (t_bx f) /\ shows ax (t_bx f) b x /\ shows ay (t_by f) b y /\
    (forall b', shows ax (t_bx f) b' x -> shows ay (t_by f) b' y -> b' = b) /\
    transform2_indices ax ay cx cy f ms mm x y = Ok (Z.of_nat b).
Proof.
  intros ms mm x y  Hpx Hpy Kx Ky Cx Cy. unfold clean in *. clear clean.
  destruct (the_bin _ _ _ _ _ _ _ f ax ay HF HT (Hpx _) (Hpy _) x y Kx Ky) as (b & Hb & Hin & Hu & _).
  destruct (bins_length _ _ _ _ _ _ _ _ HF) as [L1 L2].
  exists b. split; [lia|]. pose proof Hin as (iv & jv & H1 & H2 & H3). apply andb_true_iff in H3 as [H3 H4].
  split; [apply shows_in_axis; [eapply known_num; eauto|eauto]|]. split; [apply shows_in_axis; [eapply known_num; eauto|eauto]|]. split.
  - intros b' Hx Hy. apply shows_in_axis in Hx as (iv' & Hx1 & Hx2); [|eapply known_num; eauto].
    apply shows_in_axis in Hy as (jv' & Hy1 & Hy2); [|eapply known_num; eauto]. apply (Hu b' iv' jv' Hx1 Hy1). now rewrite Hx2, Hy2.
  - apply transform2_clean; try assumption; try (eapply known_num; eauto). lia.
Qed.
Lemma G_table_counts  : (forall l, nondecreasing (pre_x l)) -> (forall l, nondecreasing (pre_y l)) ->
  axis_ok ax (map s_x (filter (clean2 cx cy) data)) -> axis_ok ay (map s_y (filter (clean2 cx cy) data)) ->
  (forall b, b < length (t_bx f) ->
     nth_error (t_nev f) b = Some (n_of (fun s => negb (y_isnull (s_z s)) && y_is0 (s_z s) && lands ax ay cx cy f b s) data) /\
     nth_error (t_ev f) b = Some (n_of (fun s => negb (y_isnull (s_z s)) && negb (y_is0 (s_z s)) && lands ax ay cx cy f b s) data)) /\
  nth_error (t_nev f) (length (t_bx f)) = Some (n_of (fun s => special2 cx cy s && y_is0 (s_z s)) data) /\
  nth_error (t_ev f) (length (t_bx f)) = Some (n_of (fun s => special2 cx cy s && negb (y_is0 (s_z s))) data) /\
  nth_error (t_nev f) (S (length (t_bx f))) = Some (n_of (fun s => missing2 s && y_is0 (s_z s)) data) /\
  nth_error (t_ev f) (S (length (t_bx f))) = Some (n_of (fun s => missing2 s && negb (y_is0 (s_z s))) data) /\
  length (t_nev f) = length (t_bx f) + 2 /\ length (t_ev f) = length (t_bx f) + 2 /\ length (t_by f) = length (t_bx f).
Proof.
  intros Hpx Hpy Ax Ay. unfold clean in *. clear clean.
  destruct (bins_length _ _ _ _ _ _ _ _ HF) as [L1 L2]. 
  assert (Hkn : forall s, In s data -> clean2 cx cy s = true -> known ax (s_x s) /\ known ay (s_y s)).
  { intros s Hs0 Hc. destruct (clean_not_null _ _ _ Hc) as (N1 & N2 & _).
    assert (In s (filter (clean2 cx cy) data)) by (apply filter_In; auto).
    split; [eapply clean_known; [exact Ax|now apply in_map|exact N1]|eapply clean_known; [exact Ay|now apply in_map|exact N2]]. }
  split; [|].
  - intros b Hb. rewrite L1 in Hb. destruct (nth_error srs b) as [r|] eqn:Er; [|apply nth_error_None in Er; lia].
    assert (Hr : rect_ok (S (length (pre_y (filter (clean2 cx cy) data)))) (S (length (pre_x (filter (clean2 cx cy) data)))) r) by (apply (proj1 HT); eapply nth_error_In; eauto).
    rewrite (fo_ne _ _ _ _ _ _ _ _ HF), (fo_e _ _ _ _ _ _ _ _ HF).
    rewrite !nth_error_app1 by (now rewrite map_length). rewrite !nth_error_map, Er. cbn [option_map].
    rewrite !cell_sum_rect by exact Hr. unfold n_of. rewrite !filter_filter.
    split; f_equal; f_equal; f_equal; apply filter_ext_len; intros s Hsd.
    + destruct (y_isnull (s_z s)) eqn:Ez; cbn [negb andb].
      * unfold clean2, missing2. rewrite Ez, !orb_true_r. reflexivity.
      * rewrite (lands_rect _ _ _ _ _ _ _ f ax ay cx cy HF HT (Hpx _) (Hpy _) b r s Er Ez (Hkn s Hsd)).
        destruct (y_is0 (s_z s)), (clean2 cx cy s); reflexivity.
    + destruct (y_isnull (s_z s)) eqn:Ez; cbn [negb andb].
      * unfold clean2, missing2. rewrite Ez, !orb_true_r. reflexivity.
      * rewrite (lands_rect _ _ _ _ _ _ _ f ax ay cx cy HF HT (Hpx _) (Hpy _) b r s Er Ez (Hkn s Hsd)).
        destruct (y_is0 (s_z s)), (clean2 cx cy s); reflexivity.
  - rewrite (fo_ne _ _ _ _ _ _ _ _ HF), (fo_e _ _ _ _ _ _ _ _ HF), L1.
    rewrite !nth_error_app2 by (rewrite map_length; lia). rewrite !map_length, !Nat.sub_diag, !app_length, !map_length, L2.
    replace (S (length srs) - length srs) with 1 by lia. cbn [nth_error length]. unfold target_info2. cbn [fst snd]. rewrite !filter_filter.
    unfold n_of. repeat split.
Qed.
Lemma G_monotone_x (HX : forall r r', In r srs -> In r' srs -> adj_x r r' -> follows (trend_x c) (diff_x c) (q_of (matrix ax ay (pre_x clean) (pre_y clean) false clean) (matrix ax ay (pre_x clean) (pre_y clean) true clean) (S (length (pre_x clean))) r) (q_of (matrix ax ay (pre_x clean) (pre_y clean) false clean) (matrix ax ay (pre_x clean) (pre_y clean) true clean) (S (length (pre_x clean))) r')) : forall b b' lo s hi, (forall l, increasing (pre_x l)) -> (forall l, nondecreasing (pre_y l)) ->
  nth_error (t_bx f) b = Some (lo, Some s) -> nth_error (t_bx f) b' = Some (Some s, hi) ->
  (exists v, in_interval (t_by f) b v /\ in_interval (t_by f) b' v) ->
  follows (trend_x c) (diff_x c) (row_rate f b) (row_rate f b').
Proof.
  intros b b' lo s hi  Hpx Hpy Hb Hb' (v & Hv & Hv'). unfold clean in *. clear clean.
  set (sx := pre_x (filter (clean2 cx cy) data)) in *. set (sy := pre_y (filter (clean2 cx cy) data)) in *.
  rewrite (fo_x _ _ _ _ _ _ _ _ HF), nth_error_map in Hb, Hb'.
  destruct (nth_error srs b) as [r|] eqn:Er; [|discriminate]. destruct (nth_error srs b') as [r'|] eqn:Er'; [|discriminate].
  cbn [option_map] in Hb, Hb'. injection Hb as _ E1. injection Hb' as E2 _.
  unfold in_interval in Hv, Hv'. rewrite (fo_y _ _ _ _ _ _ _ _ HF), nth_error_map in Hv, Hv'. rewrite Er in Hv. rewrite Er' in Hv'. cbn [option_map] in Hv, Hv'.
  pose proof (proj1 HT r (nth_error_In _ _ Er)) as (Hk & Hl & Hm & Hn). pose proof (proj1 HT r' (nth_error_In _ _ Er')) as (Hk' & Hl' & Hm' & Hn').
  apply (in_bin_edges sy) in Hv; [|apply Hpy|lia|lia]. apply (in_bin_edges sy) in Hv'; [|apply Hpy|lia|lia].
  assert (Ha : adj_x r r').
  { split; [exact (edge_inj sx _ _ s (Hpx _) E1 E2)|]. exists (digitize sy v). lia. }
  assert (Hlt : b < length srs) by (apply nth_error_Some; congruence). assert (Hlt' : b' < length srs) by (apply nth_error_Some; congruence).
  specialize (HX r r' (nth_error_In _ _ Er) (nth_error_In _ _ Er') Ha).
  assert (Hq : forall b r, nth_error srs b = Some r -> row_rate f b = q_of (matrix ax ay sx sy false (filter (clean2 cx cy) data)) (matrix ax ay sx sy true (filter (clean2 cx cy) data)) (S (length sx)) r).
  { intros b0 r0 H0. unfold row_rate, q_of. rewrite (fo_ne _ _ _ _ _ _ _ _ HF), (fo_e _ _ _ _ _ _ _ _ HF).
    assert (b0 < length srs) by (apply nth_error_Some; congruence).
    rewrite !app_nth1 by (now rewrite map_length). f_equal; (erewrite nth_error_nth; [reflexivity|]; rewrite nth_error_map, H0; reflexivity). }
  rewrite (Hq b r Er), (Hq b' r' Er'). exact HX.
Qed.
Lemma G_monotone_y (HY : forall r r', In r srs -> In r' srs -> adj_y r r' -> follows (trend_y c) (diff_y c) (q_of (matrix ax ay (pre_x clean) (pre_y clean) false clean) (matrix ax ay (pre_x clean) (pre_y clean) true clean) (S (length (pre_x clean))) r) (q_of (matrix ax ay (pre_x clean) (pre_y clean) false clean) (matrix ax ay (pre_x clean) (pre_y clean) true clean) (S (length (pre_x clean))) r')) : forall b b' lo s hi, (forall l, nondecreasing (pre_x l)) -> (forall l, increasing (pre_y l)) ->
  nth_error (t_by f) b = Some (lo, Some s) -> nth_error (t_by f) b' = Some (Some s, hi) ->
  (exists v, in_interval (t_bx f) b v /\ in_interval (t_bx f) b' v) ->
  follows (trend_y c) (diff_y c) (row_rate f b) (row_rate f b').
Proof.
  intros b b' lo s hi  Hpx Hpy Hb Hb' (v & Hv & Hv'). unfold clean in *. clear clean.
  set (sx := pre_x (filter (clean2 cx cy) data)) in *. set (sy := pre_y (filter (clean2 cx cy) data)) in *.
  rewrite (fo_y _ _ _ _ _ _ _ _ HF), nth_error_map in Hb, Hb'.
  destruct (nth_error srs b) as [r|] eqn:Er; [|discriminate]. destruct (nth_error srs b') as [r'|] eqn:Er'; [|discriminate].
  cbn [option_map] in Hb, Hb'. injection Hb as _ E1. injection Hb' as E2 _.
  unfold in_interval in Hv, Hv'. rewrite (fo_x _ _ _ _ _ _ _ _ HF), nth_error_map in Hv, Hv'. rewrite Er in Hv. rewrite Er' in Hv'. cbn [option_map] in Hv, Hv'.
  pose proof (proj1 HT r (nth_error_In _ _ Er)) as (Hk & Hl & Hm & Hn). pose proof (proj1 HT r' (nth_error_In _ _ Er')) as (Hk' & Hl' & Hm' & Hn').
  apply (in_bin_edges sx) in Hv; [|apply Hpx|lia|lia]. apply (in_bin_edges sx) in Hv'; [|apply Hpx|lia|lia].
  assert (Ha : adj_y r r').
  { split; [exact (edge_inj sy _ _ s (Hpy _) E1 E2)|]. exists (digitize sx v). lia. }
  specialize (HY r r' (nth_error_In _ _ Er) (nth_error_In _ _ Er') Ha).
  assert (Hq : forall b r, nth_error srs b = Some r -> row_rate f b = q_of (matrix ax ay sx sy false (filter (clean2 cx cy) data)) (matrix ax ay sx sy true (filter (clean2 cx cy) data)) (S (length sx)) r).
  { intros b0 r0 H0. unfold row_rate, q_of. rewrite (fo_ne _ _ _ _ _ _ _ _ HF), (fo_e _ _ _ _ _ _ _ _ HF).
    assert (b0 < length srs) by (apply nth_error_Some; congruence).
    rewrite !app_nth1 by (now rewrite map_length). f_equal; (erewrite nth_error_nth; [reflexivity|]; rewrite nth_error_map, H0; reflexivity). }
  rewrite (Hq b r Er), (Hq b' r' Er'). exact HY.
Qed.
Lemma G_limits (Hok : forall r, In r srs -> admissible g (matrix ax ay (pre_x clean) (pre_y clean) false clean) (matrix ax ay (pre_x clean) (pre_y clean) true clean) (cells (S (length (pre_x clean))) r) = true) (H1 : at_least (min_bins2 c) (Z.of_nat (length srs))) (H2 : at_most (max_bins2 c) (Z.of_nat (length srs))) : at_least (min_bins2 c) (Z.of_nat (length (t_bx f))) /\ at_most (max_bins2 c) (Z.of_nat (length (t_bx f))) /\
  forall b, b < length (t_bx f) -> let e := nth b (t_ev f) 0%Z in let ne := nth b (t_nev f) 0%Z in
    (0 < e)%Z /\ (0 < ne)%Z /\ at_least (min_size g) (e + ne) /\ at_most (max_size g) (e + ne) /\
    at_least (min_ev g) e /\ at_most (max_ev g) e /\ at_least (min_nev g) ne /\ at_most (max_nev g) ne.
Proof.
  unfold clean in *. clear clean.
    destruct (bins_length _ _ _ _ _ _ _ _ HF) as [L1 L2].
  rewrite L1. split; [exact H1|]. split; [exact H2|]. intros b Hb. set (e := nth b (t_ev f) 0%Z). set (ne := nth b (t_nev f) 0%Z).
  destruct (nth_error srs b) as [r|] eqn:Er; [|apply nth_error_None in Er; lia].
  specialize (Hok r (nth_error_In _ _ Er)). cbv beta in Hok.
  assert (Hr : rect_ok (S (length (pre_y (filter (clean2 cx cy) data)))) (S (length (pre_x (filter (clean2 cx cy) data)))) r) by (apply (proj1 HT); eapply nth_error_In; eauto).
  assert (Ee : e = cell_sum (matrix ax ay (pre_x (filter (clean2 cx cy) data)) (pre_y (filter (clean2 cx cy) data)) false (filter (clean2 cx cy) data)) (cells (S (length (pre_x (filter (clean2 cx cy) data)))) r)).
  { unfold e. rewrite (fo_e _ _ _ _ _ _ _ _ HF), app_nth1 by (now rewrite map_length). erewrite nth_error_nth; [reflexivity|]. rewrite nth_error_map, Er; reflexivity. }
  assert (Ene : ne = cell_sum (matrix ax ay (pre_x (filter (clean2 cx cy) data)) (pre_y (filter (clean2 cx cy) data)) true (filter (clean2 cx cy) data)) (cells (S (length (pre_x (filter (clean2 cx cy) data)))) r)).
  { unfold ne. rewrite (fo_ne _ _ _ _ _ _ _ _ HF), app_nth1 by (now rewrite map_length). erewrite nth_error_nth; [reflexivity|]. rewrite nth_error_map, Er; reflexivity. }
  unfold admissible in Hok. rewrite <- Ee, <- Ene in Hok. rewrite !cell_sum_rect in * by exact Hr.
  assert (0 <= e)%Z by lia. assert (0 <= ne)%Z by lia. clear Ee Ene.
  rewrite !andb_true_iff in Hok. destruct Hok as [[[[[[Hz A1] A2] A3] A4] A5] A6]. apply negb_true_iff, orb_false_iff in Hz as [Hz1 Hz2].
  apply Z.eqb_neq in Hz1, Hz2.
  assert (G1 : forall o v, ge_opt o v = true -> at_least o v) by (intros [z|] v Hv; cbn in *; [now apply Z.leb_le|exact I]).
  assert (G2 : forall o v, le_opt o v = true -> at_most o v) by (intros [z|] v Hv; cbn in *; [now apply Z.leb_le|exact I]).
  split; [lia|]. split; [lia|]. auto 10.
Qed.
Lemma G_total  : (zsum (t_nev f) + zsum (t_ev f) = Z.of_nat (length data) + n_of (fun s => missing2 s && special2 cx cy s) data)%Z.
Proof.
  fold clean in HF.
  set (sx := pre_x clean) in *. set (sy := pre_y clean) in *.
  rewrite (fo_ne _ _ _ _ _ _ _ _ HF), (fo_e _ _ _ _ _ _ _ _ HF), !zsum_app. cbn [zsum]. unfold target_info2. cbn [fst snd].
  assert (Hcls : forall l : list sample2, (Z.of_nat (length (filter (fun s => y_is0 (s_z s)) l)) + Z.of_nat (length (filter (fun s => negb (y_is0 (s_z s))) l)) = Z.of_nat (length l))%Z).
  { induction l as [|a l IH]; [reflexivity|]. cbn [filter]. destruct (y_is0 (s_z a)); cbn [negb length]; lia. }
  assert (Hall : (zsum (map (fun r => cell_sum (matrix ax ay sx sy true clean) (cells (S (length sx)) r)) srs) +
                  zsum (map (fun r => cell_sum (matrix ax ay sx sy false clean) (cells (S (length sx)) r)) srs) = Z.of_nat (length clean))%Z).
  { rewrite <- zsum_map_plus.
    rewrite (zsum_map_ext _ (fun r => Z.of_nat (length (filter (fun s => nmem (digitize sy (encode ay (s_y s)) * S (length sx) + digitize sx (encode ax (s_x s))) (cells (S (length sx)) r)) clean)))).
    2:{ intros r Hr. pose proof (proj1 HT r Hr) as Hok. rewrite !cell_sum_rect by exact Hok.
        clearbody sx sy. generalize clean as l. clear. induction l as [|s l IH]; [reflexivity|]. cbn [filter]. destruct (y_is0 (s_z s)); cbn [Bool.eqb andb];
        destruct (nmem _ _); cbn [andb length]; lia. }
    clearbody sx sy. generalize clean as l. clear Hcls HF. induction l as [|s l IH].
    - generalize srs as rs0. intros rs0. induction rs0 as [|r rs0 IH0]; [reflexivity|]. cbn [map zsum filter length]. exact IH0.
    - cbn [length]. rewrite Nat2Z.inj_succ, <- IH. clear IH.
      set (d := digitize sx (encode ax (s_x s))). set (e := digitize sy (encode ay (s_y s))).
      assert (Hd : d < S (length sx)) by (unfold d; pose proof (digitize_le sx (encode ax (s_x s))); lia).
      assert (He : e < S (length sy)) by (unfold e; pose proof (digitize_le sy (encode ay (s_y s))); lia).
      rewrite (zsum_map_ext _ (fun r => (if nmem (e * S (length sx) + d) (cells (S (length sx)) r) then 1 else 0) +
         Z.of_nat (length (filter (fun s => nmem (digitize sy (encode ay (s_y s)) * S (length sx) + digitize sx (encode ax (s_x s))) (cells (S (length sx)) r)) l)))%Z).
      2:{ intros r _. cbn [filter]. fold d e. destruct (nmem _ (cells _ r)); cbn [length]; lia. }
      rewrite zsum_map_plus. assert (E1 : zsum (map (fun r => if nmem (e * S (length sx) + d) (cells (S (length sx)) r) then 1 else 0)%Z srs) = 1%Z); [|lia].
      pose proof (tiling_NoDup _ _ _ HT) as Hnd. destruct (proj2 HT e d He Hd) as (b & r & Hb & Hin & _).
      assert (Hone : forall r', In r' srs -> nmem (e * S (length sx) + d) (cells (S (length sx)) r') = true -> r' = r).
      { intros r' Hr' H. apply nmem_In in H. apply (cells_In_coord (S (length sy))) in H; [|now apply (proj1 HT)|exact Hd].
        eapply tiling_unique; [exact HT|exact He|exact Hd|exact Hr'|eapply nth_error_In; eauto|exact H|exact Hin]. }
      assert (Hr : In r srs) by (eapply nth_error_In; eauto).
      assert (Hrt : nmem (e * S (length sx) + d) (cells (S (length sx)) r) = true).
      { apply nmem_In. apply (cells_In_coord (S (length sy))); [now apply (proj1 HT)|exact Hd|exact Hin]. }
      clear - Hnd Hone Hr Hrt. induction Hnd as [|a l Ha Hnd IH]; [destruct Hr|]. cbn [map zsum]. destruct Hr as [->|Hr].
      + rewrite Hrt. assert (E0 : zsum (map (fun r0 => if nmem (e * S (length sx) + d) (cells (S (length sx)) r0) then 1 else 0)%Z l) = 0%Z); [|lia].
        assert (Hz : forall r', In r' l -> nmem (e * S (length sx) + d) (cells (S (length sx)) r') = false).
        { intros r' Hr'. apply not_true_is_false. intros H. apply Hone in H; [|now right]. subst. contradiction. }
        clear - Hz. induction l as [|a l IH]; [reflexivity|]. cbn [map zsum]. rewrite (Hz a (or_introl eq_refl)), IH; [reflexivity|]. intros; apply Hz; now right.
      + destruct (nmem (e * S (length sx) + d) (cells (S (length sx)) a)) eqn:E.
        * apply Hone in E; [|now left]. subst. contradiction.
        * rewrite IH; [reflexivity| |exact Hr]. intros; apply Hone; [now right|assumption]. }
  assert (Hsp := Hcls (filter (special2 cx cy) data)). assert (Hmi := Hcls (filter missing2 data)).
  assert (Hpart : (Z.of_nat (length clean) + Z.of_nat (length (filter (special2 cx cy) data)) + Z.of_nat (length (filter missing2 data)) =
     Z.of_nat (length data) + n_of (fun s => missing2 s && special2 cx cy s) data)%Z).
  { unfold clean, n_of. clear. induction data as [|s l IH]; [reflexivity|]. cbn [filter]. unfold clean2 at 1.
    destruct (missing2 s), (special2 cx cy s); cbn [negb andb length]; lia. }
  lia.
Qed.
End G.
