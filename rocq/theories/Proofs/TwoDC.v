(** Continuous 2D binning: the grid machinery with any rectangle value in place of the event rate. *)
From Coq Require Import List ZArith QArith Qfield Lia Bool Arith Permutation.
From Verif Require Import Model.Arr Model.Core Model.TwoD Model.TwoDCont Spec.CoreSpec Spec.TwoDSpec Spec.TwoDContSpec
  Proofs.ArrP Proofs.CoreP Proofs.TwoDP Proofs.TwoDQ Proofs.TwoDR Proofs.TwoDS Proofs.TwoDT Proofs.TwoDU Proofs.TwoDV.
Import ListNotations.
Open Scope nat_scope.

Lemma feasible2_iff_q m n g (q : rect -> Q) nrec (ok : list nat -> bool) sol : 0 < n -> gamma2 g = false ->
  let rs := rects_of m n ok in let rd := grid_rdata m n ok in length sol = length rs ->
  (feasible2 m n g rd (map q rs) nrec sol <->
   valid_tiling m n g (fun r => ok (cells n r) = true) q (select sol rs)).
Proof.
  intros Hn Hg rs rd Hlen. unfold feasible2, valid_tiling. unfold dominating2. rewrite Hg.
  assert (El : length (rd_rows rd) = length rs) by (unfold rd, grid_rdata; cbn [rd_rows]; now rewrite map_length).
  rewrite bins_bounds by (now rewrite El). rewrite El. change (length rs) with (length (rects_of m n ok)). change (map q rs) with (map q (rects_of m n ok)).
  rewrite (mono_follows m n ok q _ sol adj_x (conn_x m n rd) (trend_x g) (diff_x g) Hlen eq_refl).
  2:{ intros t u H. apply conn_lt in H. fold rs. now rewrite <- El. }
  2:{ intros t u r r' Ht Hu. unfold adj_x. split.
      - intros H. destruct (conn_x_inv m n ok t u r Ht H) as (r0 & y & Hr0 & H1 & H2 & H3). rewrite Hu in Hr0. injection Hr0 as <-. eauto.
      - intros (H1 & y & H2 & H3). now apply (conn_x_In m n ok t u r r' y). }
  rewrite (mono_follows m n ok q _ sol adj_y (conn_y m n rd) (trend_y g) (diff_y g) Hlen eq_refl).
  2:{ intros t u H. apply conn_lt in H. fold rs. now rewrite <- El. }
  2:{ intros t u r r' Ht Hu. unfold adj_y. split.
      - intros H. destruct (conn_y_inv m n ok t u r Ht H) as (r0 & y & Hr0 & H1 & H2 & H3). rewrite Hu in Hr0. injection Hr0 as <-. eauto.
      - intros (H1 & y & H2 & H3). now apply (conn_y_In m n ok t u r r' y). }
  fold rs. rewrite (length_select sol rs Hlen).
  assert (Hok : forall r, In r (select sol rs) -> ok (cells n r) = true) by (intros r Hr; apply select_In' in Hr; now apply rects_of_In in Hr as [_ ?]).
  change (rd_rows rd) with (map (cells n) rs). split.
  - intros (_ & HU & HB & HX & HY & _). split; [now apply sol_tiling|]. tauto.
  - intros (HT & _ & H1 & H2 & HX & HY). split; [exact Hlen|]. split; [now apply unique_of_tiling|]. tauto.
Qed.
Lemma feasible2_complete_q m n g (q : rect -> Q) nrec (ok : list nat -> bool) ts : 0 < n -> gamma2 g = false ->
  let rs := rects_of m n ok in let rd := grid_rdata m n ok in
  valid_tiling m n g (fun r => ok (cells n r) = true) q ts ->
  exists sol, feasible2 m n g rd (map q rs) nrec sol /\ Permutation (select sol rs) ts.
Proof.
  intros Hn Hg rs rd HV. pose proof HV as (HT & Hok & H1 & H2 & HX & HY).
  assert (HP : Permutation (select (sol_for rs ts) rs) ts).
  { apply select_sol_for; [apply rects_of_NoDup|now apply (tiling_NoDup m n)|]. intros r Hr. apply rects_of_In. split; [now apply (proj1 HT)|now apply Hok]. }
  exists (sol_for rs ts). split; [|exact HP].
  apply (feasible2_iff_q m n g q nrec ok (sol_for rs ts) Hn Hg); [unfold sol_for; now rewrite map_length|]. fold rs.
  assert (Hin : forall r, In r (select (sol_for rs ts) rs) -> In r ts) by (intros r Hr; eapply Permutation_in; eauto).
  split; [eapply tiling_perm; [apply Permutation_sym; exact HP|exact HT]|]. split; [intros r Hr; apply Hok; auto|].
  rewrite (Permutation_length HP). split; [exact H1|]. split; [exact H2|]. split; intros r r' Hr Hr'; [apply HX|apply HY]; auto.
Qed.
Lemma feasible2_valid_q m n g (q : rect -> Q) nrec (ok : list nat -> bool) sol : 0 < n ->
  let rs := rects_of m n ok in let rd := grid_rdata m n ok in
  feasible2 m n g rd (map q rs) nrec sol ->
  valid_tiling m n g (fun r => ok (cells n r) = true) q (select sol rs).
Proof.
  intros Hn rs rd H. assert (Hlen : length sol = length rs).
  { destruct H as [H _]. rewrite H. unfold rd, grid_rdata. cbn [rd_rows]. now rewrite map_length. }
  apply (proj1 (feasible2_iff_q m n (no_gamma g) q nrec ok sol Hn eq_refl Hlen)).
  destruct H as (H1 & H2 & H3 & H4 & H5 & _). unfold feasible2. repeat (split; [assumption|]). exact I.
Qed.

(** * cell sums *)
Lemma zsum_nil_map {A} (l : list A) : zsum (map (fun _ => 0%Z) l) = 0%Z.
Proof. induction l as [|a l IH]; [reflexivity|]. cbn [map zsum]. now rewrite IH. Qed.
Lemma sum_weights {A} (w : A -> Z) (key : A -> nat) (row : list nat) (l : list A) : NoDup row ->
  zsum (map (fun c => zsum (map w (filter (fun s => Nat.eqb (key s) c) l))) row) =
  zsum (map w (filter (fun s => nmem (key s) row) l)).
Proof.
  intros Hnd. induction l as [|s l IH]; [apply zsum_nil_map|]. cbn [filter].
  rewrite (map_ext _ (fun c => ((if Nat.eqb (key s) c then w s else 0) + zsum (map w (filter (fun s0 => Nat.eqb (key s0) c) l)))%Z)).
  2:{ intros c. destruct (Nat.eqb (key s) c); cbn [map zsum]; lia. }
  rewrite zsum_map_plus, IH. clear IH.
  assert (E : zsum (map (fun c => if Nat.eqb (key s) c then w s else 0)%Z row) = (if nmem (key s) row then w s else 0)%Z).
  { induction Hnd as [|c row Hc Hnd IH]; [reflexivity|]. cbn [map zsum nmem existsb]. fold (nmem (key s) row). rewrite IH.
    destruct (Nat.eqb_spec (key s) c) as [E|E]; cbn [orb]; [|lia].
    destruct (nmem (key s) row) eqn:E2; [apply nmem_In in E2; congruence|lia]. }
  rewrite E. destruct (nmem (key s) row); cbn [map zsum]; lia.
Qed.
Definition key3 (ax ay : axis) (sx sy : list Z) (s : sample3) : nat :=
  digitize sy (encode ay (c_y s)) * S (length sx) + digitize sx (encode ax (c_x s)).
Lemma matrix3_nth ax ay sx sy w clean c : let n := S (length sx) in let m := S (length sy) in c < m * n ->
  nth c (matrix3 ax ay sx sy w clean) 0%Z = zsum (map w (filter (fun s => Nat.eqb (key3 ax ay sx sy s) c) clean)).
Proof.
  intros n m Hc. assert (Hn : 0 < n) by (unfold n; lia).
  assert (Hy : c / n < m) by (apply Nat.div_lt_upper_bound; lia).
  assert (Hx : c mod n < n) by (apply Nat.mod_upper_bound; lia).
  erewrite nth_error_nth; [|unfold matrix3; rewrite (cell_coord n c Hn) at 1; apply grid_nth; assumption].
  f_equal. f_equal. apply filter_ext_len. intros s _. unfold key3. fold n.
  set (dx := digitize sx (encode ax (c_x s))). set (dy := digitize sy (encode ay (c_y s))).
  assert (Hdx : dx < n) by (unfold dx, n; pose proof (digitize_le sx (encode ax (c_x s))); lia).
  destruct (Nat.eqb_spec (dy * n + dx) c) as [E|E].
  - apply andb_true_iff. rewrite !Nat.eqb_eq. rewrite (cell_coord n c Hn) in E at 1. apply coord_unique in E; lia.
  - apply andb_false_iff. destruct (Nat.eqb_spec dx (c mod n)) as [E1|E1]; [|now left]. destruct (Nat.eqb_spec dy (c / n)) as [E2|E2]; [|now right].
    exfalso. apply E. rewrite E1, E2. symmetry. now apply cell_coord.
Qed.
Lemma cell_sum_rect3 ax ay sx sy w clean r : let n := S (length sx) in let m := S (length sy) in rect_ok m n r ->
  cell_sum (matrix3 ax ay sx sy w clean) (cells n r) =
  zsum (map w (filter (fun s => nmem (key3 ax ay sx sy s) (cells n r)) clean)).
Proof.
  intros n m Hr. unfold cell_sum. rewrite <- (sum_weights w (key3 ax ay sx sy) (cells n r) clean) by now apply (cells_NoDup m).
  apply zsum_map_ext. intros c Hc. apply matrix3_nth. fold n m. eapply cells_lt; eauto.
Qed.
Lemma zsum_one3 l : zsum (map one3 l) = Z.of_nat (length l).
Proof. induction l as [|a l IH]; [reflexivity|]. cbn [map zsum length]. rewrite IH. unfold one3. lia. Qed.

(** * unpacking a fit *)
Definition q3 (fr fs : list Z) (n : nat) (r : rect) : Q := qmean (cell_sum fs (cells n r)) (cell_sum fr (cells n r)).
Section Fit.
Variables (ax ay : axis) (cx cy : option (list xval)) (pre_x pre_y : list sample3 -> list Z) (g : size_cfg) (c : cfg2)
  (solver : nat -> nat -> rdata -> list Q -> list Z -> option (list bool)) (P0 : nat -> list nat) (data : list sample3) (f : fitted3).
Hypothesis Hfit : fit3 ax ay cx cy pre_x pre_y g solver P0 data = Ok f.
Hypothesis Hsolver : sound_solver2 c solver.
Hypothesis HP0 : forall k, length (P0 k) = k.
Let clean := filter (clean3 cx cy) data.
Let sx := pre_x clean. Let sy := pre_y clean.
Let n := S (length sx). Let m := S (length sy).
Let fr := matrix3 ax ay sx sy one3 clean. Let fs := matrix3 ax ay sx sy c_z clean. Let fss := matrix3 ax ay sx sy sq3 clean.
Let spec := filter (special3 cx cy) data. Let miss := filter missing3 data.
Lemma fit3_unpack : exists srs,
  valid_tiling m n c (fun r => admissible_cont g fr (cells n r) = true) (q3 fr fs n) srs /\
  fit_of sx sy fs fr srs (info3 spec) (info3 miss) (k_fit f) /\
  k_var f = map (fun r => var_of fr fs fss (cells n r)) srs ++ [np_var (map c_z spec); np_var (map c_z miss)].
Proof.
  unfold fit3 in Hfit. fold clean in Hfit. fold sx sy in Hfit. fold n m in Hfit. fold fr fs fss in Hfit. fold spec miss in Hfit.
  destruct (solver m n _ _ _) as [sol|] eqn:Es; [|discriminate]. apply Hsolver in Es.
  assert (Hn : 0 < n) by (unfold n; lia).
  assert (Er : means_of fr fs (rd_rows (grid_rdata m n (admissible_cont g fr))) = map (q3 fr fs n) (rects_of m n (admissible_cont g fr))).
  { unfold means_of, grid_rdata. cbn [rd_rows]. now rewrite map_map. }
  rewrite Er in Es.
  pose proof (feasible2_valid_q m n c _ _ _ sol Hn Es) as HV.
  destruct (finish2 _ _ _ _ _ _ _ _ _ _) as [f0|] eqn:EF; [|discriminate]. cbn [rbind] in Hfit. injection Hfit as <-. cbn [k_fit k_var].
  exists (select sol (rects_of m n (admissible_cont g fr))). split; [exact HV|].
  assert (HF : fit_of sx sy fs fr (select sol (rects_of m n (admissible_cont g fr))) (info3 spec) (info3 miss) f0).
  { apply (finish2_fit sx sy fs fr (rects_of m n (admissible_cont g fr)) sol (P0 (m * n))); [exact (proj1 HV)|apply HP0|exact EF]. }
  split; [exact HF|]. rewrite (fo_rows _ _ _ _ _ _ _ _ HF). now rewrite map_map.
Qed.
End Fit.
