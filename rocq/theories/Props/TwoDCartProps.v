(** C61: strategy "cart" of the 2D binnings. *)
From Coq Require Import List ZArith QArith Qabs Lia Bool Arith Permutation Sorting.
From Verif Require Import Model.Arr Model.Core Model.TwoD Model.TwoDCont Model.TwoDCart Spec.CoreSpec Spec.TwoDSpec Spec.TwoDContSpec Spec.TwoDCartSpec
  Proofs.ArrP Proofs.CoreP Proofs.TwoDP Proofs.TwoDQ Proofs.TwoDR Proofs.TwoDS Proofs.TwoDT Proofs.TwoDU Proofs.TwoDV Proofs.TwoDG Proofs.TwoDC Proofs.TwoDCR
  Proofs.TwoDCartP Proofs.TwoDCartQ Proofs.TwoDCartR.
Import ListNotations.
Open Scope nat_scope.

(** The candidate bins are exactly the rectangles that consist of more than one whole leaf of the tree and pass the size
    checks, each once. *)
Theorem C61_candidates : forall m n t A0 ok, 0 < n -> length A0 = m * n ->
  NoDup (cart_rows m n t A0 ok) /\
  forall row, In row (cart_rows m n t A0 ok) <-> exists r, candidate m n t ok r /\ row = cells n r.
Proof. intros m n t A0 ok Hn HA. split; [now apply cart_rows_NoDup|]. intros row. now apply cart_rows_In. Qed.
Print Assumptions C61_candidates.

(** Every pair of known values without a special code lies in exactly one bin of the table, and transform returns its index. *)
Theorem C61_bins_partition_plane : forall ax ay cx cy pre_x pre_y grow g c solver P0 data f ms mm x y,
  fit2_cart ax ay cx cy pre_x pre_y grow g solver P0 data = Ok f -> sound_solver2 c solver ->
  (forall k, length (P0 k) = k) -> (forall l, nondecreasing (pre_x l)) -> (forall l, nondecreasing (pre_y l)) ->
  known ax x -> known ay y -> no_code cx x -> no_code cy y ->
  exists b, b < length (t_bx f) /\ shows ax (t_bx f) b x /\ shows ay (t_by f) b y /\
    (forall b', shows ax (t_bx f) b' x -> shows ay (t_by f) b' y -> b' = b) /\
    transform2_indices ax ay cx cy f ms mm x y = Ok (Z.of_nat b).
Proof.
  intros ax ay cx cy pre_x pre_y grow g c solver P0 data f ms mm x y Hfit Hs HP0 Hpx Hpy Kx Ky Cx Cy.
  destruct (fit2_cart_unpack ax ay cx cy pre_x pre_y grow g c solver P0 data f Hfit Hs HP0) as (srs & (HT & _) & _ & HF & _).
  eapply G_bins_partition_plane; eassumption.
Qed.
Print Assumptions C61_bins_partition_plane.

(** The row of bin b counts the training samples (with a target) that transform sends to b, by class. *)
Theorem C61_table_counts : forall ax ay cx cy pre_x pre_y grow g c solver P0 data f,
  fit2_cart ax ay cx cy pre_x pre_y grow g solver P0 data = Ok f -> sound_solver2 c solver ->
  (forall k, length (P0 k) = k) -> (forall l, nondecreasing (pre_x l)) -> (forall l, nondecreasing (pre_y l)) ->
  axis_ok ax (map s_x (filter (clean2 cx cy) data)) -> axis_ok ay (map s_y (filter (clean2 cx cy) data)) ->
  (forall b, b < length (t_bx f) ->
     nth_error (t_nev f) b = Some (n_of (fun s => negb (y_isnull (s_z s)) && y_is0 (s_z s) && lands ax ay cx cy f b s) data) /\
     nth_error (t_ev f) b = Some (n_of (fun s => negb (y_isnull (s_z s)) && negb (y_is0 (s_z s)) && lands ax ay cx cy f b s) data)) /\
  nth_error (t_nev f) (length (t_bx f)) = Some (n_of (fun s => special2 cx cy s && y_is0 (s_z s)) data) /\
  nth_error (t_ev f) (length (t_bx f)) = Some (n_of (fun s => special2 cx cy s && negb (y_is0 (s_z s))) data) /\
  nth_error (t_nev f) (S (length (t_bx f))) = Some (n_of (fun s => missing2 s && y_is0 (s_z s)) data) /\
  nth_error (t_ev f) (S (length (t_bx f))) = Some (n_of (fun s => missing2 s && negb (y_is0 (s_z s))) data) /\
  length (t_nev f) = length (t_bx f) + 2 /\ length (t_ev f) = length (t_bx f) + 2 /\ length (t_by f) = length (t_bx f).
Proof.
  intros ax ay cx cy pre_x pre_y grow g c solver P0 data f Hfit Hs HP0 Hpx Hpy Ax Ay.
  destruct (fit2_cart_unpack ax ay cx cy pre_x pre_y grow g c solver P0 data f Hfit Hs HP0) as (srs & (HT & _) & _ & HF & _).
  eapply G_table_counts; eassumption.
Qed.
Print Assumptions C61_table_counts.

(** Number of bins within [min_n_bins, max_n_bins]; every bin has events and non-events and respects the size limits. *)
Theorem C61_limits : forall ax ay cx cy pre_x pre_y grow g c solver P0 data f,
  fit2_cart ax ay cx cy pre_x pre_y grow g solver P0 data = Ok f -> sound_solver2 c solver -> (forall k, length (P0 k) = k) ->
  at_least (min_bins2 c) (Z.of_nat (length (t_bx f))) /\ at_most (max_bins2 c) (Z.of_nat (length (t_bx f))) /\
  forall b, b < length (t_bx f) -> let e := nth b (t_ev f) 0%Z in let ne := nth b (t_nev f) 0%Z in
    (0 < e)%Z /\ (0 < ne)%Z /\ at_least (min_size g) (e + ne) /\ at_most (max_size g) (e + ne) /\
    at_least (min_ev g) e /\ at_most (max_ev g) e /\ at_least (min_nev g) ne /\ at_most (max_nev g) ne.
Proof.
  intros ax ay cx cy pre_x pre_y grow g c solver P0 data f Hfit Hs HP0.
  destruct (fit2_cart_unpack ax ay cx cy pre_x pre_y grow g c solver P0 data f Hfit Hs HP0) as (srs & (HT & H1 & H2 & _) & Hc & HF & _).
  eapply G_limits; try eassumption. intros r Hr. apply (Hc r Hr).
Qed.
Print Assumptions C61_limits.

(** Bins that share a split along y and overlap along x have rates in the order of monotonic_trend_y. *)
Theorem C61_monotone_y : forall ax ay cx cy pre_x pre_y grow g c solver P0 data f b b' lo s hi,
  fit2_cart ax ay cx cy pre_x pre_y grow g solver P0 data = Ok f -> sound_solver2 c solver ->
  (forall k, length (P0 k) = k) -> (forall l, nondecreasing (pre_x l)) -> (forall l, increasing (pre_y l)) ->
  nth_error (t_by f) b = Some (lo, Some s) -> nth_error (t_by f) b' = Some (Some s, hi) ->
  (exists v, in_interval (t_bx f) b v /\ in_interval (t_bx f) b' v) ->
  follows (trend_y c) (diff_y c) (row_rate f b) (row_rate f b').
Proof.
  intros ax ay cx cy pre_x pre_y grow g c solver P0 data f b b' lo s hi Hfit Hs HP0 Hpx Hpy Hb Hb' Hv.
  destruct (fit2_cart_unpack ax ay cx cy pre_x pre_y grow g c solver P0 data f Hfit Hs HP0) as (srs & (HT & _ & _ & _ & HY) & _ & HF & _).
  eapply G_monotone_y; eauto.
Qed.
Print Assumptions C61_monotone_y.
(** Along x the order is only guaranteed when the second bin reaches the upper end of the first along y. *)
Theorem C61_monotone_x_partial : forall ax ay cx cy pre_x pre_y grow g c solver P0 data f b b' lo s hi,
  fit2_cart ax ay cx cy pre_x pre_y grow g solver P0 data = Ok f -> sound_solver2 c solver ->
  (forall k, length (P0 k) = k) -> (forall l, increasing (pre_x l)) -> (forall l, increasing (pre_y l)) ->
  nth_error (t_bx f) b = Some (lo, Some s) -> nth_error (t_bx f) b' = Some (Some s, hi) ->
  (exists v, in_interval (t_by f) b v /\ forall v', (v <= v')%Z -> in_interval (t_by f) b v' -> in_interval (t_by f) b' v') ->
  follows (trend_x c) (diff_x c) (row_rate f b) (row_rate f b').
Proof.
  intros ax ay cx cy pre_x pre_y grow g c solver P0 data f b b' lo s hi Hfit Hs HP0 Hpx Hpy Hb Hb' (v & Hv & Hup).
  destruct (fit2_cart_unpack ax ay cx cy pre_x pre_y grow g c solver P0 data f Hfit Hs HP0) as (srs & (HT & _ & _ & HX & _) & _ & HF & _).
  set (clean := filter (clean2 cx cy) data) in *. set (sx := pre_x clean) in *. set (sy := pre_y clean) in *.
  assert (Hnx : nondecreasing sx) by (apply incr_nondecr, Hpx). assert (Hny : nondecreasing sy) by (apply incr_nondecr, Hpy).
  rewrite (fo_x _ _ _ _ _ _ _ _ HF), nth_error_map in Hb, Hb'.
  destruct (nth_error srs b) as [r|] eqn:Er; [|discriminate]. destruct (nth_error srs b') as [r'|] eqn:Er'; [|discriminate].
  cbn [option_map] in Hb, Hb'. injection Hb as _ E1. injection Hb' as E2 _.
  pose proof (proj1 HT r (nth_error_In _ _ Er)) as (Hk & Hl & Hm & Hn). pose proof (proj1 HT r' (nth_error_In _ _ Er')) as (Hk' & Hl' & Hm' & Hn').
  assert (In1 : forall v, in_interval (t_by f) b v <-> r_i r <= digitize sy v < r_i r + r_k r).
  { intros u. unfold in_interval. rewrite (fo_y _ _ _ _ _ _ _ _ HF), nth_error_map, Er. cbn [option_map]. apply in_bin_edges; [exact Hny|lia|lia]. }
  assert (In2 : forall v, in_interval (t_by f) b' v <-> r_i r' <= digitize sy v < r_i r' + r_k r').
  { intros u. unfold in_interval. rewrite (fo_y _ _ _ _ _ _ _ _ HF), nth_error_map, Er'. cbn [option_map]. apply in_bin_edges; [exact Hny|lia|lia]. }
  apply In1 in Hv. set (y := r_i r + r_k r - 1).
  assert (Hy : exists u, (v <= u)%Z /\ digitize sy u = y).
  { destruct (Nat.eq_dec (digitize sy v) y) as [E|E]; [exists v; split; [lia|exact E]|].
    destruct (nth_error sy (y - 1)) as [e|] eqn:Ee; [|apply nth_error_None in Ee; unfold y in *; lia].
    exists e. assert (De : digitize sy e = y).
    { replace y with (S (y - 1)) by (unfold y in *; lia). apply digitize_split; [apply Hpy|exact Ee]. }
    split; [|exact De]. destruct (Z.le_gt_cases v e) as [H|H]; [exact H|]. exfalso.
    assert (digitize sy e <= digitize sy v) by (apply digitize_mono_le; [exact Hny|lia]). unfold y in *. lia. }
  destruct Hy as (u & Hu & Du). assert (Hub : in_interval (t_by f) b' u) by (apply Hup; [exact Hu|apply In1; rewrite Du; unfold y; lia]).
  apply In2 in Hub. rewrite Du in Hub.
  assert (Ha : adj_last_row r r') by (split; [exact (edge_inj sx _ _ s (Hpx _) E1 E2)|unfold y in *; lia]).
  specialize (HX r r' (nth_error_In _ _ Er) (nth_error_In _ _ Er') Ha).
  assert (Hq : forall b r, nth_error srs b = Some r -> row_rate f b = q_of (matrix ax ay sx sy false clean) (matrix ax ay sx sy true clean) (S (length sx)) r).
  { intros b0 r0 H0. unfold row_rate, q_of. rewrite (fo_ne _ _ _ _ _ _ _ _ HF), (fo_e _ _ _ _ _ _ _ _ HF).
    assert (b0 < length srs) by (apply nth_error_Some; congruence).
    rewrite !app_nth1 by (now rewrite map_length). f_equal; (erewrite nth_error_nth; [reflexivity|]; rewrite nth_error_map, H0; reflexivity). }
  rewrite (Hq b r Er), (Hq b' r' Er'). exact HX.
Qed.
Print Assumptions C61_monotone_x_partial.

(** The solutions of the constraint model are the tilings by candidates that respect those limits, so an optimal solution
    beats all of them. *)
Theorem C61_optimal : forall m n t A0 ok c fe fne w sol ts, 0 < n -> length A0 = m * n -> gamma2 c = false ->
  let rd := cart_rdata m n t A0 ok in
  let rate_of := fun r => rate (cell_sum fe (cells n r)) (cell_sum fne (cells n r)) in
  let feasible := feasible2 m n c rd (rates_of fe fne (rd_rows rd)) (records_of fe fne (rd_rows rd)) in
  feasible sol -> (forall sol', feasible sol' -> (objective2 (map w (rd_rows rd)) sol' <= objective2 (map w (rd_rows rd)) sol)%Z) ->
  exists best, select sol (rd_rows rd) = map (cells n) best /\ valid_cart m n c rate_of best /\ (forall r, In r best -> candidate m n t ok r) /\
    (valid_cart m n c rate_of ts -> (forall r, In r ts -> candidate m n t ok r) ->
     (zsum (map (fun r => w (cells n r)) ts) <= zsum (map (fun r => w (cells n r)) best))%Z).
Proof.
  intros m n t A0 ok c fe fne w sol ts Hn HA Hg rd rate_of feasible Hf Hopt.
  destruct (cart_rects m n t A0 ok Hn HA) as (rs & Ers & Hrs).
  assert (Hok : forall r, In r rs -> rect_ok m n r) by (intros r Hr; apply (Hrs r Hr)).
  assert (HND : NoDup rs) by (apply (NoDup_map_inv (cells n)); rewrite <- Ers; now apply cart_rows_NoDup).
  assert (Hall : forall r, candidate m n t ok r -> In r rs).
  { intros r Hr. assert (H : In (cells n r) (map (cells n) rs)) by (rewrite <- Ers; apply cart_rows_In; eauto).
    apply in_map_iff in H as (r' & E & Hr'). rewrite <- (cells_inj m n r' r Hn (Hok r' Hr') (proj1 Hr) E). exact Hr'. }
  unfold feasible, rd, cart_rdata in *. cbn [rd_rows] in *. rewrite Ers in *.
  assert (Er : rates_of fe fne (map (cells n) rs) = map rate_of rs) by (unfold rates_of; now rewrite map_map).
  rewrite Er in *. exists (select sol rs). split; [apply select_map|].
  split; [exact (k_valid m n rs Hok c rate_of _ sol Hn Hf)|]. split; [intros r Hr; apply Hrs; eapply select_In'; eauto|].
  intros Hts Hc. destruct (k_complete m n rs Hok c rate_of (records_of fe fne (map (cells n) rs)) ts Hn HND Hg (fun r Hr => Hall r (Hc r Hr)) Hts) as (sol' & Hf' & HP).
  specialize (Hopt sol' Hf'). rewrite map_map, !objective2_sum in Hopt.
  rewrite <- (zsum_perm _ _ (Permutation_map _ HP)). exact Hopt.
Qed.
Print Assumptions C61_optimal.

(** No bin is a single leaf of the tree ... *)
Theorem C61_no_single_leaf_bin : forall ax ay cx cy pre_x pre_y grow g c solver P0 data f b,
  fit2_cart ax ay cx cy pre_x pre_y grow g solver P0 data = Ok f -> sound_solver2 c solver -> (forall k, length (P0 k) = k) ->
  (forall l, nondecreasing (pre_x l)) -> (forall l, nondecreasing (pre_y l)) -> b < length (t_bx f) ->
  let clean := filter (clean2 cx cy) data in
  exists x y x' y', x <= length (pre_x clean) /\ x' <= length (pre_x clean) /\ y <= length (pre_y clean) /\ y' <= length (pre_y clean) /\
    (forall v, digitize (pre_x clean) v = x -> in_interval (t_bx f) b v) /\ (forall v, digitize (pre_x clean) v = x' -> in_interval (t_bx f) b v) /\
    (forall v, digitize (pre_y clean) v = y -> in_interval (t_by f) b v) /\ (forall v, digitize (pre_y clean) v = y' -> in_interval (t_by f) b v) /\
    leaf_of (grow clean) x y <> leaf_of (grow clean) x' y'.
Proof.
  intros ax ay cx cy pre_x pre_y grow g c solver P0 data f b Hfit Hs HP0 Hpx Hpy Hb clean.
  destruct (fit2_cart_unpack ax ay cx cy pre_x pre_y grow g c solver P0 data f Hfit Hs HP0) as (srs & (HT & _) & Hc & HF & _). fold clean in HT, Hc, HF.
  destruct (bins_length _ _ _ _ _ _ _ _ HF) as [L1 L2]. rewrite L1 in Hb.
  destruct (nth_error srs b) as [r|] eqn:Er; [|apply nth_error_None in Er; lia].
  destruct (Hc r (nth_error_In _ _ Er)) as ((Hk & Hl & Hm & Hn) & _ & (y & x & y' & x' & [I1 I2] & [I3 I4] & Hne) & _).
  exists x, y, x', y'. repeat (split; [lia|]).
  assert (GX : forall x v, r_j r <= x < r_j r + r_l r -> digitize (pre_x clean) v = x -> in_interval (t_bx f) b v).
  { intros x0 v H E. unfold in_interval. rewrite (fo_x _ _ _ _ _ _ _ _ HF), nth_error_map, Er. cbn [option_map]. apply in_bin_edges; [apply Hpx|lia|lia|lia]. }
  assert (GY : forall y v, r_i r <= y < r_i r + r_k r -> digitize (pre_y clean) v = y -> in_interval (t_by f) b v).
  { intros y0 v H E. unfold in_interval. rewrite (fo_y _ _ _ _ _ _ _ _ HF), nth_error_map, Er. cbn [option_map]. apply in_bin_edges; [apply Hpy|lia|lia|lia]. }
  split; [intros v; now apply GX|]. split; [intros v; now apply GX|]. split; [intros v; now apply GY|]. split; [intros v; now apply GY|exact Hne].
Qed.
Print Assumptions C61_no_single_leaf_bin.
(** ... and with at most two leaves there is no fit at all, whatever the data and the limits: "cart finds a binning whenever
    grid does" is false. *)
Theorem C61_two_leaves_fail : forall ax ay cx cy pre_x pre_y grow g c solver P0 data f,
  sound_solver2 c solver -> (forall k, length (P0 k) = k) -> n_leaves (grow (filter (clean2 cx cy) data)) <= 2 ->
  fit2_cart ax ay cx cy pre_x pre_y grow g solver P0 data <> Ok f.
Proof.
  intros ax ay cx cy pre_x pre_y grow g c solver P0 data f Hs HP0 H2 Hfit.
  destruct (fit2_cart_unpack ax ay cx cy pre_x pre_y grow g c solver P0 data f Hfit Hs HP0) as (srs & (HT & _) & Hc & HF & Hl & Hsl).
  set (clean := filter (clean2 cx cy) data) in *. set (n := S (length (pre_x clean))) in *. set (m := S (length (pre_y clean))) in *.
  set (ok := admissible g _ _) in *. assert (Hn : 0 < n) by (unfold n; lia).
  assert (Hwhole : forall r, candidate m n (grow clean) ok r -> r = mkRect 0 0 m n).
  { intros r (Hr & Hw & (y & x & y' & x' & I & I' & Hne) & _). pose proof Hr as (R1 & R2 & R3 & R4).
    assert (G : forall y0 x0, y0 < m -> x0 < n -> in_rect r y0 x0).
    { intros y0 x0 Hy0 Hx0. pose proof (leaf_of_lt (grow clean) x0 y0). pose proof (leaf_of_lt (grow clean) x y). pose proof (leaf_of_lt (grow clean) x' y').
      destruct (Nat.eq_dec (leaf_of (grow clean) x0 y0) (leaf_of (grow clean) x y)) as [E|E]; [exact (Hw y x y0 x0 Hy0 Hx0 I E)|].
      apply (Hw y' x' y0 x0 Hy0 Hx0 I'). lia. }
    pose proof (G 0 0 ltac:(unfold m; lia) Hn) as [G1 G2]. pose proof (G (m - 1) (n - 1) ltac:(unfold m; lia) ltac:(lia)) as [G3 G4].
    destruct r as [i j k l]. cbn [r_i r_j r_k r_l] in *. f_equal; lia. }
  assert (Hrows : forall row, In row (cart_rows m n (grow clean) (P0 (m * n)) ok) -> row = cells n (mkRect 0 0 m n)).
  { intros row H. apply cart_rows_In in H as (r & Hr & ->); [|exact Hn|apply HP0]. now rewrite (Hwhole r Hr). }
  pose proof (cart_rows_NoDup m n (grow clean) (P0 (m * n)) ok Hn (HP0 _)) as HND.
  destruct (proj2 HT 0 0 ltac:(unfold m; lia) ltac:(lia)) as (b & r & Hb & _).
  assert (Hin : In (cells n r) (cart_rows m n (grow clean) (P0 (m * n)) ok)).
  { apply cart_rows_In; [exact Hn|apply HP0|]. exists r. split; [apply Hc; eapply nth_error_In; eauto|reflexivity]. }
  destruct (cart_rows m n (grow clean) (P0 (m * n)) ok) as [|row [|row' rows]] eqn:E; [destruct Hin|discriminate Hsl|].
  inversion HND as [|? ? Hni _]. apply Hni. left. rewrite (Hrows row' (or_intror (or_introl eq_refl))). symmetry. apply Hrows. now left.
Qed.
Print Assumptions C61_two_leaves_fail.

(** ** An example: grid of 4 rows and 2 columns, 6 leaves (two in the left column, four in the right one) *)
Definition ex_tree : tree :=
  Node true 0 (Node false 1 Leaf Leaf) (Node false 1 (Node false 0 Leaf Leaf) (Node false 2 Leaf Leaf)).
Definition rep {A} (k : nat) (a : A) := repeat a k.
Definition at_cell (x y : Z) (ne e : nat) : list sample2 := rep ne (XNum x, XNum y, Y0) ++ rep e (XNum x, XNum y, Y1).
Definition cart_data : list sample2 :=
  at_cell 1 0 1 1 ++ at_cell 1 1 1 1 ++ at_cell 1 2 1 1 ++ at_cell 1 3 1 1 ++
  at_cell 5 0 3 1 ++ at_cell 5 1 3 1 ++ at_cell 5 2 1 3 ++ at_cell 5 3 1 3.
Definition cart_pre_x (l : list sample2) : list Z := [3%Z].
Definition cart_pre_y (l : list sample2) : list Z := [1; 2; 3]%Z.
Definition no_sizes : size_cfg := {| min_size := None; max_size := None; min_ev := None; max_ev := None; min_nev := None; max_nev := None |}.
Definition cart_cfg : cfg2 := {| trend_x := Some Asc2; trend_y := Some Asc2; min_bins2 := Some 3%Z; max_bins2 := Some 3%Z; diff_x := 0; diff_y := 0; gamma2 := false |}.
Definition cart_fit := fit2_cart ANum ANum None None cart_pre_x cart_pre_y (fun _ => ex_tree) no_sizes (brute cart_cfg) (fun k => repeat 7 k) cart_data.
Example C61_hyps_met : exists f, cart_fit = Ok f /\ sound_solver2 cart_cfg (brute cart_cfg) /\ (forall k, length (repeat 7 k) = k) /\
  (forall l, increasing (cart_pre_x l)) /\ (forall l, increasing (cart_pre_y l)) /\ length (t_bx f) = 3 /\
  t_ev f = [4; 2; 6; 0; 0]%Z /\ t_nev f = [4; 6; 2; 0; 0]%Z /\
  transform2_indices ANum ANum None None f Empirical Empirical (XNum 4) (XNum 2) = Ok 2%Z.
Proof.
  eexists. split; [vm_compute; reflexivity|]. split; [apply brute_sound|]. split; [intros k; apply repeat_length|].
  split; [intros l; repeat constructor|]. split; [intros l; repeat constructor|]. vm_compute. repeat split.
Qed.
(** The trend along x is violated between two adjacent bins of that fit: monotonic_trend_x is not guaranteed. *)
Theorem C61_monotone_x_refuted : exists f b b' lo s hi, cart_fit = Ok f /\ trend_x cart_cfg = Some Asc2 /\
  nth_error (t_bx f) b = Some (lo, Some s) /\ nth_error (t_bx f) b' = Some (Some s, hi) /\
  (exists v, in_interval (t_by f) b v /\ in_interval (t_by f) b' v) /\ (row_rate f b' < row_rate f b)%Q.
Proof.
  eexists. exists 0, 1. eexists. eexists. eexists. split; [vm_compute; reflexivity|]. split; [reflexivity|]. split; [reflexivity|]. split; [reflexivity|].
  split; [|reflexivity]. exists 0%Z. split; vm_compute; auto; intuition discriminate.
Qed.
Print Assumptions C61_monotone_x_refuted.

(** ** Continuous target *)
(** Continuous target: every pair of known values lies in exactly one bin; transform returns its index. *)
Theorem C61_continuous_bins_partition_plane : forall ax ay cx cy pre_x pre_y grow g c solver P0 data f ms mm x y,
  fit3_cart ax ay cx cy pre_x pre_y grow g solver P0 data = Ok f -> sound_solver2 c solver ->
  (forall k, length (P0 k) = k) -> (forall l, nondecreasing (pre_x l)) -> (forall l, nondecreasing (pre_y l)) ->
  known ax x -> known ay y -> no_code cx x -> no_code cy y ->
  let bx := t_bx (k_fit f) in let by' := t_by (k_fit f) in
  exists b, b < length bx /\ shows ax bx b x /\ shows ay by' b y /\
    (forall b', shows ax bx b' x -> shows ay by' b' y -> b' = b) /\
    transform3_indices ax ay cx cy f ms mm x y = Ok (Z.of_nat b).
Proof.
  intros ax ay cx cy pre_x pre_y grow g c solver P0 data f ms mm x y Hfit Hs HP0 Hpx Hpy Kx Ky Cx Cy bx by'.
  destruct (fit3_cart_unpack ax ay cx cy pre_x pre_y grow g c solver P0 data f Hfit Hs HP0) as (srs & HV & HC & HF & _).
  destruct (the_bin _ _ _ _ _ _ _ (k_fit f) ax ay HF (proj1 HV) (Hpx _) (Hpy _) x y Kx Ky) as (b & Hb & Hin & Hu & _).
  destruct (bins_length _ _ _ _ _ _ _ _ HF) as [L1 L2].
  exists b. split; [unfold bx; lia|]. pose proof Hin as (iv & jv & H1 & H2 & H3). apply andb_true_iff in H3 as [H3 H4].
  split; [apply shows_in_axis; [eapply known_num; eauto|eauto]|]. split; [apply shows_in_axis; [eapply known_num; eauto|eauto]|]. split.
  - intros b' Hx Hy. apply shows_in_axis in Hx as (iv' & Hx1 & Hx2); [|eapply known_num; eauto].
    apply shows_in_axis in Hy as (jv' & Hy1 & Hy2); [|eapply known_num; eauto]. apply (Hu b' iv' jv' Hx1 Hy1). now rewrite Hx2, Hy2.
  - apply transform2_clean; try assumption; try (eapply known_num; eauto). lia.
Qed.
Print Assumptions C61_continuous_bins_partition_plane.
(** Continuous target: the rows show the number, the sum and the mean squared deviation of the targets of the samples in the bin. *)
Theorem C61_continuous_table_rows : forall ax ay cx cy pre_x pre_y grow g c solver P0 data f,
  fit3_cart ax ay cx cy pre_x pre_y grow g solver P0 data = Ok f -> sound_solver2 c solver ->
  (forall k, length (P0 k) = k) -> (forall l, nondecreasing (pre_x l)) -> (forall l, nondecreasing (pre_y l)) ->
  axis_ok ax (map c_x (filter (clean3 cx cy) data)) -> axis_ok ay (map c_y (filter (clean3 cx cy) data)) ->
  let nb := length (t_bx (k_fit f)) in
  let row := fun b l => nth_error (k_records f) b = Some (count3 l) /\ nth_error (k_sums f) b = Some (total3 l) /\
                        exists v, nth_error (k_var f) b = Some v /\ v == sq_dev3 l in
  (forall b, b < nb -> row b (filter (lands3 ax ay cx cy f b) data) /\ filter (lands3 ax ay cx cy f b) data <> []) /\
  row nb (filter (special3 cx cy) data) /\ row (S nb) (filter missing3 data) /\
  length (k_records f) = nb + 2 /\ length (k_sums f) = nb + 2 /\ length (k_var f) = nb + 2 /\ length (t_by (k_fit f)) = nb.
Proof.
  intros ax ay cx cy pre_x pre_y grow g c solver P0 data f Hfit Hs HP0 Hpx Hpy Ax Ay nb row.
  destruct (fit3_cart_unpack ax ay cx cy pre_x pre_y grow g c solver P0 data f Hfit Hs HP0) as (srs & HV & HC & HF & HVar).
  destruct (bins_length _ _ _ _ _ _ _ _ HF) as [L1 L2]. pose proof (proj1 HV) as HT.
  set (clean := filter (clean3 cx cy) data) in *. set (sx := pre_x clean) in *. set (sy := pre_y clean) in *.
  split; [|].
  - intros b Hb. unfold nb in Hb. rewrite L1 in Hb. destruct (nth_error srs b) as [r|] eqn:Er; [|apply nth_error_None in Er; lia].
    assert (Hr : rect_ok (S (length sy)) (S (length sx)) r) by (apply (proj1 HT); eapply nth_error_In; eauto).
    pose proof (proj2 (proj2 (proj2 (HC r (nth_error_In _ _ Er))))) as Hok.
    unfold admissible_cont in Hok. rewrite cell_sum_rect3 in Hok by exact Hr. rewrite zsum_one3 in Hok.
    pose proof (group3 ax ay cx cy sx sy _ _ srs _ _ f data HF HT (Hpx _) (Hpy _) Ax Ay b r Er) as G. fold clean in G.
    rewrite <- G in Hok. assert (NE : filter (lands3 ax ay cx cy f b) data <> []).
    { intros E. rewrite E in Hok. discriminate Hok. }
    split; [|exact NE]. unfold row, k_records, k_sums.
    rewrite (fo_ne _ _ _ _ _ _ _ _ HF), (fo_e _ _ _ _ _ _ _ _ HF), HVar.
    rewrite !nth_error_app1 by (now rewrite map_length). rewrite !nth_error_map, Er. cbn [option_map]. unfold var_of.
    rewrite !cell_sum_rect3 by exact Hr. rewrite zsum_one3, <- G. split; [reflexivity|]. split; [reflexivity|].
    eexists. split; [reflexivity|]. symmetry. apply sq_dev3_eq. exact NE.
  - unfold row, k_records, k_sums, nb. rewrite (fo_ne _ _ _ _ _ _ _ _ HF), (fo_e _ _ _ _ _ _ _ _ HF), HVar, L1.
    rewrite !nth_error_app2 by (rewrite map_length; lia). rewrite !map_length, !Nat.sub_diag, !app_length, !map_length, L2.
    replace (S (length srs) - length srs) with 1 by lia. cbn [nth_error length]. unfold info3. cbn [fst snd].
    rewrite !np_var_dev.
    split; [|split; [|split; [lia|split; [lia|split; [lia|reflexivity]]]]]; (split; [reflexivity|split; [reflexivity|eexists; split; [reflexivity|apply Qeq_refl]]]).
Qed.
Print Assumptions C61_continuous_table_rows.
(** Continuous target: the means follow monotonic_trend_y. *)
Theorem C61_continuous_monotone_y : forall ax ay cx cy pre_x pre_y grow g c solver P0 data f b b' lo s hi,
  fit3_cart ax ay cx cy pre_x pre_y grow g solver P0 data = Ok f -> sound_solver2 c solver ->
  (forall k, length (P0 k) = k) -> (forall l, nondecreasing (pre_x l)) -> (forall l, increasing (pre_y l)) ->
  nth_error (t_by (k_fit f)) b = Some (lo, Some s) -> nth_error (t_by (k_fit f)) b' = Some (Some s, hi) ->
  (exists v, in_interval (t_bx (k_fit f)) b v /\ in_interval (t_bx (k_fit f)) b' v) ->
  follows (trend_y c) (diff_y c) (row_mean f b) (row_mean f b').
Proof.
  intros ax ay cx cy pre_x pre_y grow g c solver P0 data f b b' lo s hi Hfit Hs HP0 Hpx Hpy Hb Hb' (v & Hv & Hv').
  destruct (fit3_cart_unpack ax ay cx cy pre_x pre_y grow g c solver P0 data f Hfit Hs HP0) as (srs & HV & HC & HF & _).
  pose proof (proj1 HV) as HT. destruct HV as (_ & _ & _ & _ & HY).
  set (sx := pre_x (filter (clean3 cx cy) data)) in *. set (sy := pre_y (filter (clean3 cx cy) data)) in *.
  rewrite (fo_y _ _ _ _ _ _ _ _ HF), nth_error_map in Hb, Hb'.
  destruct (nth_error srs b) as [r|] eqn:Er; [|discriminate]. destruct (nth_error srs b') as [r'|] eqn:Er'; [|discriminate].
  cbn [option_map] in Hb, Hb'. injection Hb as _ E1. injection Hb' as E2 _.
  unfold in_interval in Hv, Hv'. rewrite (fo_x _ _ _ _ _ _ _ _ HF), nth_error_map in Hv, Hv'. rewrite Er in Hv. rewrite Er' in Hv'. cbn [option_map] in Hv, Hv'.
  pose proof (proj1 HT r (nth_error_In _ _ Er)) as (Hk & Hl & Hm & Hn). pose proof (proj1 HT r' (nth_error_In _ _ Er')) as (Hk' & Hl' & Hm' & Hn').
  apply (in_bin_edges sx) in Hv; [|apply Hpx|lia|lia]. apply (in_bin_edges sx) in Hv'; [|apply Hpx|lia|lia].
  assert (Ha : adj_y r r').
  { split; [exact (edge_inj sy _ _ s (Hpy _) E1 E2)|]. exists (digitize sx v). lia. }
  rewrite (row_mean_q3 _ _ _ _ _ _ _ _ b r HF Er), (row_mean_q3 _ _ _ _ _ _ _ _ b' r' HF Er').
  exact (HY r r' (nth_error_In _ _ Er) (nth_error_In _ _ Er') Ha).
Qed.
Print Assumptions C61_continuous_monotone_y.
