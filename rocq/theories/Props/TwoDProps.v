(** C46: two-dimensional optimal binning (strategy "grid", binary target). *)
From Coq Require Import List ZArith QArith Lia Bool Arith Permutation Sorting.
From Verif Require Import Model.Arr Model.Core Model.TwoD Spec.CoreSpec Spec.TwoDSpec Proofs.ArrP Proofs.CoreP Proofs.TwoDP Proofs.TwoDQ Proofs.TwoDR
  Proofs.TwoDS Proofs.TwoDT Proofs.TwoDU Proofs.TwoDV Proofs.TwoDG.
Import ListNotations.
Open Scope nat_scope.

(** Every pair of known values without a special code lies in exactly one bin of the table, and transform returns its index. *)
Theorem C46_bins_partition_plane : forall ax ay cx cy pre_x pre_y g c solver P0 data f ms mm x y,
  fit2 ax ay cx cy pre_x pre_y g solver P0 data = Ok f -> sound_solver2 c solver ->
  (forall k, length (P0 k) = k) -> (forall l, nondecreasing (pre_x l)) -> (forall l, nondecreasing (pre_y l)) ->
  known ax x -> known ay y -> no_code cx x -> no_code cy y ->
  exists b, b < length (t_bx f) /\ shows ax (t_bx f) b x /\ shows ay (t_by f) b y /\
    (forall b', shows ax (t_bx f) b' x -> shows ay (t_by f) b' y -> b' = b) /\
    transform2_indices ax ay cx cy f ms mm x y = Ok (Z.of_nat b).
Proof.
  intros ax ay cx cy pre_x pre_y g c solver P0 data f ms mm x y Hfit Hs HP0 Hpx Hpy Kx Ky Cx Cy.
  destruct (fit2_unpack ax ay cx cy pre_x pre_y g c solver P0 data f Hfit Hs HP0) as (srs & HV & HF). pose proof (proj1 HV) as HT.
  eapply G_bins_partition_plane; eassumption.
Qed.
Print Assumptions C46_bins_partition_plane.

(** The row of bin b counts the training samples (with a target) that transform sends to b, by class. *)
Theorem C46_table_counts : forall ax ay cx cy pre_x pre_y g c solver P0 data f,
  fit2 ax ay cx cy pre_x pre_y g solver P0 data = Ok f -> sound_solver2 c solver ->
  (forall k, length (P0 k) = k) -> (forall l, nondecreasing (pre_x l)) -> (forall l, nondecreasing (pre_y l)) ->
  axis_ok ax (map s_x (filter (clean2 cx cy) data)) -> axis_ok ay (map s_y (filter (clean2 cx cy) data)) ->
  (forall b, b < length (t_bx f) ->
     nth_error (t_nev f) b = Some (n_of (fun s => negb (y_isnull (s_z s)) && y_is0 (s_z s) && lands ax ay cx cy f b s) data) /\
     nth_error (t_ev f) b = Some (n_of (fun s => negb (y_isnull (s_z s)) && negb (y_is0 (s_z s)) && lands ax ay cx cy f b s) data)) /\
  nth_error (t_nev f) (length (t_bx f)) = Some (n_of (fun s => special2 cx cy s && y_is0 (s_z s)) data) /\
  nth_error (t_ev f) (length (t_bx f)) = Some (n_of (fun s => special2 cx cy s && negb (y_is0 (s_z s))) data) /\
  nth_error (t_nev f) (S (length (t_bx f))) = Some (n_of (fun s => missing2 s && y_is0 (s_z s)) data) /\
  nth_error (t_ev f) (S (length (t_bx f))) = Some (n_of (fun s => missing2 s && negb (y_is0 (s_z s))) data) /\
  length (t_nev f) = length (t_bx f) + 2 /\ length (t_ev f) = length (t_bx f) + 2 /\ length (t_by f) = length (t_bx f).
Proof.
  intros ax ay cx cy pre_x pre_y g c solver P0 data f Hfit Hs HP0 Hpx Hpy Ax Ay.
  destruct (fit2_unpack ax ay cx cy pre_x pre_y g c solver P0 data f Hfit Hs HP0) as (srs & HV & HF). pose proof (proj1 HV) as HT.
  eapply G_table_counts; eassumption.
Qed.
Print Assumptions C46_table_counts.

(** Bins that share a split along x and overlap along y have rates in the order of monotonic_trend_x, more than min_event_rate_diff_x apart. *)
Theorem C46_monotone_x : forall ax ay cx cy pre_x pre_y g c solver P0 data f b b' lo s hi,
  fit2 ax ay cx cy pre_x pre_y g solver P0 data = Ok f -> sound_solver2 c solver ->
  (forall k, length (P0 k) = k) -> (forall l, increasing (pre_x l)) -> (forall l, nondecreasing (pre_y l)) ->
  nth_error (t_bx f) b = Some (lo, Some s) -> nth_error (t_bx f) b' = Some (Some s, hi) ->
  (exists v, in_interval (t_by f) b v /\ in_interval (t_by f) b' v) ->
  follows (trend_x c) (diff_x c) (row_rate f b) (row_rate f b').
Proof.
  intros ax ay cx cy pre_x pre_y g c solver P0 data f b b' lo s hi Hfit Hs HP0 Hpx Hpy Hb Hb' (v & Hv & Hv').
  destruct (fit2_unpack ax ay cx cy pre_x pre_y g c solver P0 data f Hfit Hs HP0) as (srs & HV & HF). pose proof (proj1 HV) as HT.
  destruct HV as (_ & Hok & H1 & H2 & HX & HY).
  eapply G_monotone_x; eauto.
Qed.
Print Assumptions C46_monotone_x.
Theorem C46_monotone_y : forall ax ay cx cy pre_x pre_y g c solver P0 data f b b' lo s hi,
  fit2 ax ay cx cy pre_x pre_y g solver P0 data = Ok f -> sound_solver2 c solver ->
  (forall k, length (P0 k) = k) -> (forall l, nondecreasing (pre_x l)) -> (forall l, increasing (pre_y l)) ->
  nth_error (t_by f) b = Some (lo, Some s) -> nth_error (t_by f) b' = Some (Some s, hi) ->
  (exists v, in_interval (t_bx f) b v /\ in_interval (t_bx f) b' v) ->
  follows (trend_y c) (diff_y c) (row_rate f b) (row_rate f b').
Proof.
  intros ax ay cx cy pre_x pre_y g c solver P0 data f b b' lo s hi Hfit Hs HP0 Hpx Hpy Hb Hb' (v & Hv & Hv').
  destruct (fit2_unpack ax ay cx cy pre_x pre_y g c solver P0 data f Hfit Hs HP0) as (srs & HV & HF). pose proof (proj1 HV) as HT.
  destruct HV as (_ & Hok & H1 & H2 & HX & HY).
  eapply G_monotone_y; eauto.
Qed.
Print Assumptions C46_monotone_y.

(** Number of bins within [min_n_bins, max_n_bins]; every bin has events and non-events and respects the size limits. *)
Theorem C46_limits : forall ax ay cx cy pre_x pre_y g c solver P0 data f,
  fit2 ax ay cx cy pre_x pre_y g solver P0 data = Ok f -> sound_solver2 c solver -> (forall k, length (P0 k) = k) ->
  at_least (min_bins2 c) (Z.of_nat (length (t_bx f))) /\ at_most (max_bins2 c) (Z.of_nat (length (t_bx f))) /\
  forall b, b < length (t_bx f) -> let e := nth b (t_ev f) 0%Z in let ne := nth b (t_nev f) 0%Z in
    (0 < e)%Z /\ (0 < ne)%Z /\ at_least (min_size g) (e + ne) /\ at_most (max_size g) (e + ne) /\
    at_least (min_ev g) e /\ at_most (max_ev g) e /\ at_least (min_nev g) ne /\ at_most (max_nev g) ne.
Proof.
  intros ax ay cx cy pre_x pre_y g c solver P0 data f Hfit Hs HP0.
  destruct (fit2_unpack ax ay cx cy pre_x pre_y g c solver P0 data f Hfit Hs HP0) as (srs & HV & HF). pose proof (proj1 HV) as HT.
  destruct HV as (_ & Hok & H1 & H2 & HX & HY).
  eapply G_limits; eassumption.
Qed.
Print Assumptions C46_limits.

(** The solutions of the constraint model are exactly the admissible tilings that respect the limits and trends ... *)
Theorem C46_solutions_are_the_valid_tilings : forall m n c fe fne ok, 0 < n -> gamma2 c = false ->
  let rs := rects_of m n ok in let rd := grid_rdata m n ok in
  let feasible := feasible2 m n c rd (rates_of fe fne (rd_rows rd)) (records_of fe fne (rd_rows rd)) in
  let valid := valid_tiling m n c (fun r => ok (cells n r) = true) (fun r => rate (cell_sum fe (cells n r)) (cell_sum fne (cells n r))) in
  (forall sol, length sol = length rs -> (feasible sol <-> valid (select sol rs))) /\
  (forall ts, valid ts -> exists sol, feasible sol /\ Permutation (select sol rs) ts).
Proof.
  intros m n c fe fne ok Hn Hg rs rd feasible valid. split.
  - intros sol Hlen. exact (feasible2_iff m n c fe fne ok sol Hn Hg Hlen).
  - intros ts H. exact (feasible2_complete m n c fe fne ok ts Hn Hg H).
Qed.
Print Assumptions C46_solutions_are_the_valid_tilings.
(** ... so an optimal solution beats every valid tiling of the plane. *)
Theorem C46_optimal : forall m n c fe fne ok w sol ts, 0 < n -> gamma2 c = false ->
  let rs := rects_of m n ok in let rd := grid_rdata m n ok in
  let feasible := feasible2 m n c rd (rates_of fe fne (rd_rows rd)) (records_of fe fne (rd_rows rd)) in
  feasible sol -> (forall sol', feasible sol' -> (objective2 (map w rs) sol' <= objective2 (map w rs) sol)%Z) ->
  valid_tiling m n c (fun r => ok (cells n r) = true) (fun r => rate (cell_sum fe (cells n r)) (cell_sum fne (cells n r))) ts ->
  (zsum (map w ts) <= zsum (map w (select sol rs)))%Z.
Proof.
  intros m n c fe fne ok w sol ts Hn Hg rs rd feasible Hf Hopt Hts.
  destruct (feasible2_complete m n c fe fne ok ts Hn Hg Hts) as (sol' & Hf' & HP).
  specialize (Hopt sol' Hf'). rewrite !objective2_sum in Hopt. fold rs in HP.
  rewrite <- (zsum_perm _ _ (Permutation_map w HP)). exact Hopt.
Qed.
Print Assumptions C46_optimal.

(** fit succeeds exactly when the solver finds a solution and the candidate rectangles do not all have the same number of cells. *)
Theorem C46_fit_succeeds_partial : forall ax ay cx cy pre_x pre_y g c solver P0 data sol,
  sound_solver2 c solver -> (forall k, length (P0 k) = k) ->
  let clean := filter (clean2 cx cy) data in let sx := pre_x clean in let sy := pre_y clean in
  let fe := matrix ax ay sx sy false clean in let fne := matrix ax ay sx sy true clean in
  let rd := grid_rdata (S (length sy)) (S (length sx)) (admissible g fe fne) in
  solver (S (length sy)) (S (length sx)) rd (rates_of fe fne (rd_rows rd)) (records_of fe fne (rd_rows rd)) = Some sol ->
  ((exists f, fit2 ax ay cx cy pre_x pre_y g solver P0 data = Ok f) <-> same_lengths (rd_rows rd) = false).
Proof.
  intros ax ay cx cy pre_x pre_y g c solver P0 data sol Hs HP0 clean sx sy fe fne rd E. unfold fit2.
  fold clean. fold sx sy. fold fe fne. fold rd. rewrite E. pose proof (Hs _ _ _ _ _ _ E) as Hf.
  pose proof (feasible2_valid _ _ _ _ _ _ _ (Nat.lt_0_succ _) Hf) as HV. split.
  - intros (f & H). unfold finish2 in H. destruct (same_lengths (rd_rows rd)) eqn:Es; [|reflexivity].
    destruct (length (select sol (rd_rows rd))) as [|k] eqn:El; [|discriminate]. exfalso.
    unfold rd, grid_rdata in El. cbn [rd_rows] in El. rewrite select_map, map_length in El.
    destruct (proj2 (proj1 HV) 0 0 ltac:(lia) ltac:(lia)) as (b & r & Hb & _). assert (b < 0); [|lia].
    rewrite <- El. apply nth_error_Some. congruence.
  - intros Hl. apply (finish2_ok sx sy fe fne (rects_of (S (length sy)) (S (length sx)) (admissible g fe fne)) sol); [exact (proj1 HV)|apply HP0|exact Hl].
Qed.
Print Assumptions C46_fit_succeeds_partial.
(** In particular fit fails whenever neither axis has a split (one prebin): the claim "a feasible problem is solved" is false. *)
Theorem C46_no_split_fails_refuted : forall ax ay cx cy pre_x pre_y g c solver P0 data f,
  sound_solver2 c solver -> (forall k, length (P0 k) = k) ->
  pre_x (filter (clean2 cx cy) data) = [] -> pre_y (filter (clean2 cx cy) data) = [] ->
  fit2 ax ay cx cy pre_x pre_y g solver P0 data <> Ok f.
Proof.
  intros ax ay cx cy pre_x pre_y g c solver P0 data f Hs HP0 Ex Ey H.
  destruct (solver 1 1 (grid_rdata 1 1 (admissible g (matrix ax ay [] [] false (filter (clean2 cx cy) data)) (matrix ax ay [] [] true (filter (clean2 cx cy) data))))
     (rates_of (matrix ax ay [] [] false (filter (clean2 cx cy) data)) (matrix ax ay [] [] true (filter (clean2 cx cy) data)) (rd_rows (grid_rdata 1 1 (admissible g (matrix ax ay [] [] false (filter (clean2 cx cy) data)) (matrix ax ay [] [] true (filter (clean2 cx cy) data))))))
     (records_of (matrix ax ay [] [] false (filter (clean2 cx cy) data)) (matrix ax ay [] [] true (filter (clean2 cx cy) data)) (rd_rows (grid_rdata 1 1 (admissible g (matrix ax ay [] [] false (filter (clean2 cx cy) data)) (matrix ax ay [] [] true (filter (clean2 cx cy) data)))))))
     as [sol|] eqn:E.
  - assert (Hsol := E). pose proof (C46_fit_succeeds_partial ax ay cx cy pre_x pre_y g c solver P0 data sol Hs HP0) as T. cbv zeta in T.
    rewrite Ex, Ey in T. cbn [length] in T. specialize (T E). assert (Hl := proj1 T (ex_intro _ f H)).
    apply Hs in E. destruct E as (_ & HU & _). specialize (HU 0 ltac:(lia)).
    unfold grid_rdata in *. cbn [rd_rows] in *. unfold rects_of in *. change (all_rects 1 1) with [mkRect 0 0 1 1] in *. cbn [filter] in *.
    destruct (admissible _ _ _ _) in *; cbn in Hl, HU; discriminate.
  - unfold fit2 in H. rewrite Ex, Ey in H. cbn [length] in H. rewrite E in H. discriminate.
Qed.
Print Assumptions C46_no_split_fails_refuted.

(** The special and the missing row overlap: the table's total exceeds the number of samples by those with both. *)
Definition codes_x : option (list xval) := Some [XNum 99].
Definition ex_data : list sample2 :=
  [ (XNum 1, XNum 1, Y0); (XNum 1, XNum 1, Y1); (XNum 5, XNum 1, Y0); (XNum 5, XNum 1, Y1); (XNum 5, XNum 1, Y1);
    (XNum 1, XNum 5, Y0); (XNum 1, XNum 5, Y1); (XNum 1, XNum 5, Y1); (XNum 5, XNum 5, Y1); (XNum 5, XNum 5, Y0); (XNum 5, XNum 5, Y1); (XNum 5, XNum 5, Y1);
    (XNum 99, XNum 1, Y0); (XNaN, XNum 1, Y1); (XNum 99, XNaN, Y1) ].
Definition ex_pre (l : list sample2) : list Z := [3%Z].
Definition ex_sizes : size_cfg := {| min_size := Some 2%Z; max_size := Some 9%Z; min_ev := None; max_ev := None; min_nev := None; max_nev := None |}.
Definition ex_cfg : cfg2 := {| trend_x := Some Asc2; trend_y := Some Asc2; min_bins2 := Some 3%Z; max_bins2 := Some 4%Z; diff_x := 0; diff_y := 0; gamma2 := false |}.
Definition ex_fit := fit2 ANum ANum codes_x None ex_pre ex_pre ex_sizes (brute ex_cfg) (fun k => repeat 7 k) ex_data.
Example C46_hyps_met : exists f, ex_fit = Ok f /\ sound_solver2 ex_cfg (brute ex_cfg) /\ (forall k, length (repeat 7 k) = k) /\
  (forall l, increasing (ex_pre l)) /\ length (t_bx f) = 4 /\
  t_ev f = [1; 2; 2; 3; 1; 2]%Z /\ t_nev f = [1; 1; 1; 1; 1; 0]%Z /\
  nth_error (t_bx f) 1 = Some (Some 3, None)%Z /\ nth_error (t_by f) 1 = Some (None, Some 3)%Z /\
  transform2_indices ANum ANum codes_x None f Empirical Empirical (XNum 4) (XNum 2) = Ok 1%Z.
Proof.
  eexists. split; [vm_compute; reflexivity|]. split; [apply brute_sound|]. split; [intros k; apply repeat_length|].
  split; [intros l; repeat constructor|]. vm_compute. repeat split.
Qed.
Theorem C46_total : forall ax ay cx cy pre_x pre_y g c solver P0 data f,
  fit2 ax ay cx cy pre_x pre_y g solver P0 data = Ok f -> sound_solver2 c solver -> (forall k, length (P0 k) = k) ->
  (zsum (t_nev f) + zsum (t_ev f) = Z.of_nat (length data) + n_of (fun s => missing2 s && special2 cx cy s) data)%Z.
Proof.
  intros ax ay cx cy pre_x pre_y g c solver P0 data f Hfit Hs HP0.
  destruct (fit2_unpack ax ay cx cy pre_x pre_y g c solver P0 data f Hfit Hs HP0) as (srs & HV & HF). pose proof (proj1 HV) as HT.
  eapply G_total; eassumption.
Qed.
Print Assumptions C46_total.
Example C46_sample_in_two_rows_refuted : exists f, ex_fit = Ok f /\ (zsum (t_nev f) + zsum (t_ev f) = Z.of_nat (length ex_data) + 1)%Z.
Proof. eexists. split; [vm_compute; reflexivity|]. reflexivity. Qed.

(** A category not seen in training gets index 0, the first bin, instead of a value of its own. *)
Definition cat_data : list sample2 := map (fun s => (s_x s, s_y s, s_z s)) (firstn 12 ex_data).
Theorem C46_unknown_category_refuted : exists f,
  fit2 (ACat [1; 5]%Z) ANum None None (fun _ => [1%Z]) ex_pre ex_sizes (brute ex_cfg) (fun k => repeat 7 k) cat_data = Ok f /\
  (forall b, b < length (t_bx f) -> ~ shows (ACat [1; 5]%Z) (t_bx f) b (XNum 8)) /\
  transform2_indices (ACat [1; 5]%Z) ANum None None f Empirical Empirical (XNum 8) (XNum 2) = Ok 0%Z.
Proof.
  eexists. split; [vm_compute; reflexivity|]. split; [|vm_compute; reflexivity].
  intros b Hb (iv & H1 & H2). cbn [t_bx length] in Hb. do 4 (destruct b as [|b]; [injection H1 as <-; vm_compute in H2; intuition discriminate|]). lia.
Qed.
Print Assumptions C46_unknown_category_refuted.
