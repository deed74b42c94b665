From Coq Require Import List ZArith QArith Lia Bool Arith Permutation Sorting.
From Verif Require Import Model.Arr Model.Core Model.TwoD Model.TwoDCont Model.TwoDCart Spec.CoreSpec Spec.TwoDSpec Spec.TwoDContSpec Spec.TwoDCartSpec Proofs.ArrP Proofs.CoreP
  Proofs.TwoDP Proofs.TwoDQ Proofs.TwoDR Proofs.TwoDT Proofs.TwoDU Proofs.TwoDV Proofs.TwoDC Proofs.TwoDCartP Proofs.TwoDCartQ.
Import ListNotations.
Open Scope nat_scope.

Lemma last_max l a : StronglySorted lt l -> In a l -> (forall x, In x l -> x <= a) -> last l 0 = a.
Proof.
  intros Hs Ha Hmax. assert (Hne : l <> []) by (intros ->; destruct Ha). destruct (exists_last Hne) as (l' & b & ->). rewrite last_last.
  apply in_app_or in Ha as [Ha|[->|[]]]; [|reflexivity]. exfalso.
  assert (b <= a) by (apply Hmax, in_or_app; right; now left).
  clear Hne Hmax. induction l' as [|c l' IH]; [destruct Ha|]. cbn [app] in Hs. inversion Hs as [|? ? H1 H2]; subst.
  destruct Ha as [->|Ha]; [|now apply IH]. rewrite Forall_forall in H2. assert (a < b) by (apply H2, in_or_app; right; now left). lia.
Qed.
Lemma last_cell m n r : rect_ok m n r -> last (cells n r) 0 = (r_i r + r_k r - 1) * n + (r_j r + r_l r - 1).
Proof.
  intros Hr. pose proof Hr as (Hk & Hl & Hm & Hn). apply last_max; [now apply cells_sorted| |].
  - apply (cells_In_coord m); [exact Hr|lia|]. split; lia.
  - intros c Hc. apply cells_In in Hc as (a & b & Ha & Hb & ->). nia.
Qed.

Section K.
Variables (m n : nat) (rs : list rect).
Hypothesis Hrs : forall r, In r rs -> rect_ok m n r.
Let rows := map (cells n) rs.
Let rd := {| rd_rows := rows; rd_ox := map (fun row => [last row 0]) rows; rd_oy := rows |}.
Lemma k_ok t r : nth_error rs t = Some r -> rect_ok m n r.
Proof. intros H. apply Hrs. eapply nth_error_In; eauto. Qed.
Lemma k_rows t r : nth_error rs t = Some r -> nth_error rows t = Some (cells n r).
Proof. intros H. unfold rows. rewrite nth_error_map, H. reflexivity. Qed.
Lemma k_cols u r' y x : nth_error rs u = Some r' -> x < n -> (In u (cols rows (y * n + x)) <-> in_rect r' y x).
Proof.
  intros Hu Hx. rewrite cols_In, <- (cells_In_coord m n r' y x (k_ok u r' Hu) Hx). split.
  - intros (row & H & Hin). rewrite (k_rows u r' Hu) in H. now injection H as <-.
  - intros H. exists (cells n r'). split; [now apply k_rows|exact H].
Qed.
Lemma k_overlaps t u r r' : nth_error rs t = Some r -> nth_error rs u = Some r' ->
  (overlaps rd t u = true <-> exists y x, in_rect r y x /\ in_rect r' y x).
Proof.
  intros Ht Hu. unfold overlaps. cbn [rd rd_rows]. rewrite existsb_exists. rewrite (nth_error_nth _ _ _ (k_rows t r Ht)). pose proof (k_ok t r Ht) as (Hk & Hl & Hm & Hn).
  split.
  - intros (c & Hc & H). apply nmem_In in H. assert (Hx : c mod n < n) by (apply Nat.mod_upper_bound; lia).
    assert (Hn0 : 0 < n) by lia. rewrite (cell_coord n c Hn0) in Hc, H. apply (cells_In_coord m n r _ _ (k_ok t r Ht) Hx) in Hc.
    apply (k_cols u r' _ _ Hu Hx) in H. eauto.
  - intros (y & x & H1 & H2). pose proof H1 as [I1 I2]. exists (y * n + x). split; [apply (cells_In_coord m); [now apply (k_ok t)|lia|exact H1]|].
    apply nmem_In. apply (k_cols u r'); [exact Hu|lia|exact H2].
Qed.
Lemma k_conn_x t u r r' : nth_error rs t = Some r -> nth_error rs u = Some r' -> (In u (conn_x m n rd t) <-> adj_last_row r r').
Proof.
  intros Ht Hu. pose proof (k_ok t r Ht) as Hr. pose proof (k_ok u r' Hu) as Hr'. pose proof Hr as (Hk & Hl & Hm & Hn). pose proof Hr' as (Hk' & Hl' & Hm' & Hn').
  unfold conn_x, conn. rewrite filter_In, andb_true_iff, negb_true_iff.
  assert (Eo : nth t (rd_ox rd) [] = [(r_i r + r_k r - 1) * n + (r_j r + r_l r - 1)]).
  { unfold rd. cbn [rd_ox]. erewrite nth_error_nth; [|rewrite nth_error_map, (k_rows t r Ht); reflexivity]. now rewrite (last_cell m n r Hr). }
  rewrite Eo. cbn [existsb]. rewrite orb_false_r, andb_true_iff, !nmem_In. cbn [rd rd_rows].
  set (y := r_i r + r_k r - 1). set (x := r_j r + r_l r - 1). split.
  - intros [Hu0 [[Hkey Hc] Hov]].
    assert (Hx : S x < n).
    { unfold keys_x in Hkey. apply in_flat_map in Hkey as (i & Hi & Hkey). apply in_map_iff in Hkey as (j & E & Hj). apply in_seq in Hj.
      rewrite (Nat.mul_comm n i) in E. apply coord_unique in E as [_ ->]; lia. }
    replace (y * n + x + 1) with (y * n + S x) in Hc by lia. apply (k_cols u r' _ _ Hu Hx) in Hc. pose proof Hc as [C1 C2].
    assert (Hno : ~ in_rect r' y x).
    { intros H. assert (overlaps rd t u = true); [|congruence]. apply (k_overlaps t u r r' Ht Hu). exists y, x. split; [split; lia|exact H]. }
    unfold in_rect in Hno. unfold adj_last_row. lia.
  - intros [H1 H2]. split; [apply in_seq; split; [lia|]; cbn [Nat.add]; apply nth_error_Some; rewrite (k_rows u r' Hu); discriminate|].
    split; [split|].
    + apply keys_x_In; lia.
    + replace (y * n + x + 1) with (y * n + S x) by lia. apply (k_cols u r'); [exact Hu|lia|]. split; lia.
    + apply not_true_is_false. intros H. apply (k_overlaps t u r r' Ht Hu) in H as (y0 & x0 & [_ I1] & [_ I2]). lia.
Qed.
Lemma k_conn_y t u r r' : nth_error rs t = Some r -> nth_error rs u = Some r' -> (In u (conn_y m n rd t) <-> adj_y r r').
Proof.
  intros Ht Hu. pose proof (k_ok t r Ht) as Hr. pose proof (k_ok u r' Hu) as Hr'. pose proof Hr as (Hk & Hl & Hm & Hn). pose proof Hr' as (Hk' & Hl' & Hm' & Hn').
  assert (Hn0 : 0 < n) by lia.
  unfold conn_y, conn. rewrite filter_In, andb_true_iff, negb_true_iff, existsb_exists.
  assert (Eo : nth t (rd_oy rd) [] = cells n r) by (unfold rd; cbn [rd_oy]; now apply nth_error_nth, k_rows).
  rewrite Eo. cbn [rd rd_rows]. split.
  - intros [Hu0 [(c & Hin & Hc) Hov]]. apply andb_true_iff in Hc as [Hkey Hc]. apply nmem_In in Hkey, Hc.
    assert (Hx : c mod n < n) by (apply Nat.mod_upper_bound; lia). rewrite (cell_coord n c Hn0) in Hin, Hc. set (y := c / n) in *. set (x := c mod n) in *.
    apply (cells_In_coord m n r _ _ Hr Hx) in Hin. replace (y * n + x + n) with (S y * n + x) in Hc by lia. apply (k_cols u r' _ _ Hu Hx) in Hc.
    assert (Hno : forall y x, in_rect r y x -> in_rect r' y x -> False).
    { intros y0 x0 I1 I2. assert (overlaps rd t u = true); [|congruence]. apply (k_overlaps t u r r' Ht Hu). eauto. }
    pose proof (Hno y x Hin) as N1. pose proof (Hno (S y) x) as N2. pose proof Hin as [I1 I2]. pose proof Hc as [C1 C2].
    unfold in_rect in N1, N2. split; [lia|]. exists x. lia.
  - intros [H1 (x & H2 & H3)]. split; [apply in_seq; split; [lia|]; cbn [Nat.add]; apply nth_error_Some; rewrite (k_rows u r' Hu); discriminate|]. split.
    + exists ((r_i r + r_k r - 1) * n + x). split; [apply (cells_In_coord m); [exact Hr|lia|]; split; lia|]. apply andb_true_iff. rewrite !nmem_In. split.
      * apply keys_y_In; lia.
      * replace ((r_i r + r_k r - 1) * n + x + n) with (r_i r' * n + x) by nia. apply (k_cols u r'); [exact Hu|lia|]. split; lia.
    + apply not_true_is_false. intros H. apply (k_overlaps t u r r' Ht Hu) in H as (y0 & x0 & [I1 _] & [I2 _]). lia.
Qed.

Lemma k_valid g (q : rect -> Q) nrec sol : 0 < n -> feasible2 m n g rd (map q rs) nrec sol -> valid_cart m n g q (select sol rs).
Proof.
  intros Hn (H0 & HU & HB & HX & HY & _). cbn [rd rd_rows] in *. unfold rows in H0, HB, HX, HY. rewrite map_length in *.
  assert (El : length (rd_rows rd) = length rs) by (unfold rd, rows; cbn [rd_rows]; now rewrite map_length).
  split; [apply sol_tiling_gen; auto|].
  assert (Ec : count_true sol = length (select sol rs)).
  { rewrite <- (map_length (cells n)). clear - H0. revert rs H0; induction sol as [|b sol IH]; intros [|r rs] H; try discriminate; [reflexivity|]. cbn in *.
    destruct b; cbn; rewrite (IH rs) by lia; reflexivity. }
  rewrite <- (map_length (cells n) rs) in HB. apply bins_bounds in HB; [|now rewrite map_length]. rewrite Ec in HB. destruct HB as [B1 B2].
  split; [exact B1|]. split; [exact B2|]. split.
  - apply (mono_follows_gen rs q (map q rs) sol adj_last_row (conn_x m n rd)); [exact H0|reflexivity| |exact k_conn_x|exact HX].
    intros t u Hu. apply conn_lt in Hu. now rewrite El in Hu.
  - apply (mono_follows_gen rs q (map q rs) sol adj_y (conn_y m n rd)); [exact H0|reflexivity| |exact k_conn_y|exact HY].
    intros t u Hu. apply conn_lt in Hu. now rewrite El in Hu.
Qed.
Lemma k_complete g (q : rect -> Q) nrec ts : 0 < n -> NoDup rs -> gamma2 g = false -> (forall r, In r ts -> In r rs) -> valid_cart m n g q ts ->
  exists sol, feasible2 m n g rd (map q rs) nrec sol /\ Permutation (select sol rs) ts.
Proof.
  intros Hn HND Hg Hin (HT & H1 & H2 & HX & HY).
  assert (HP : Permutation (select (sol_for rs ts) rs) ts) by (apply select_sol_for; [exact HND|now apply (tiling_NoDup m n)|exact Hin]).
  exists (sol_for rs ts). split; [|exact HP]. set (sol := sol_for rs ts) in *.
  assert (Hlen : length sol = length rs) by (unfold sol, sol_for; now rewrite map_length).
  assert (El : length (rd_rows rd) = length rs) by (unfold rd, rows; cbn [rd_rows]; now rewrite map_length).
  assert (Ec : count_true sol = length ts).
  { rewrite <- (Permutation_length HP). clear - Hlen. clearbody sol. revert rs Hlen; induction sol as [|b sol IH]; intros [|r rs] H; try discriminate; [reflexivity|]. cbn in *.
    destruct b; cbn; rewrite (IH rs) by lia; reflexivity. }
  assert (HI : forall r, In r (select sol rs) -> In r ts) by (intros r; apply Permutation_in; exact HP).
  unfold feasible2. rewrite El. split; [exact Hlen|]. split.
  { cbn [rd rd_rows]. apply unique_of_tiling_gen; auto. apply (tiling_perm m n ts); [now apply Permutation_sym|exact HT]. }
  split.
  { pose proof (bins_bounds g rows sol) as HB. unfold rows in HB. rewrite map_length in HB. apply HB; [exact Hlen|]. now rewrite Ec. }
  split; [|split].
  - apply (mono_follows_gen rs q (map q rs) sol adj_last_row (conn_x m n rd)); [exact Hlen|reflexivity| |exact k_conn_x|].
    + intros t u Hu. apply conn_lt in Hu. now rewrite El in Hu.
    + intros r r' Hr Hr'. apply HX; auto.
  - apply (mono_follows_gen rs q (map q rs) sol adj_y (conn_y m n rd)); [exact Hlen|reflexivity| |exact k_conn_y|].
    + intros t u Hu. apply conn_lt in Hu. now rewrite El in Hu.
    + intros r r' Hr Hr'. apply HY; auto.
  - unfold dominating2. now rewrite Hg.
Qed.
End K.

(** * Unpacking the fits *)
Lemma cells_inj m n r r' : 0 < n -> rect_ok m n r -> rect_ok m n r' -> cells n r = cells n r' -> r = r'.
Proof.
  intros Hn Hr Hr' E. pose proof Hr as (A1 & A2 & A3 & A4). pose proof Hr' as (B1 & B2 & B3 & B4).
  assert (G : forall y x, x < n -> (in_rect r y x <-> in_rect r' y x)).
  { intros y x Hx. rewrite <- (cells_In_coord m n r y x Hr Hx), <- (cells_In_coord m n r' y x Hr' Hx). now rewrite E. }
  unfold in_rect in G.
  destruct (proj1 (G (r_i r) (r_j r) ltac:(lia)) ltac:(lia)) as [P1 P2].
  destruct (proj2 (G (r_i r') (r_j r') ltac:(lia)) ltac:(lia)) as [P3 P4].
  destruct (proj1 (G (r_i r + r_k r - 1) (r_j r + r_l r - 1) ltac:(lia)) ltac:(lia)) as [P5 P6].
  destruct (proj2 (G (r_i r' + r_k r' - 1) (r_j r' + r_l r' - 1) ltac:(lia)) ltac:(lia)) as [P7 P8].
  clear G E Hr Hr'. destruct r as [i j k l], r' as [i' j' k' l']. cbn [r_i r_j r_k r_l] in *.
  assert (i = i') by (clear -P1 P3; lia). assert (j = j') by (clear -P2 P4; lia). subst i' j'.
  assert (k = k') by (clear -P5 P7 A1 A2 A3 A4 B1 B2 B3 B4; lia). assert (l = l') by (clear -P6 P8 A1 A2 A3 A4 B1 B2 B3 B4; lia). now subst.
Qed.
Lemma NoDup_rects n (rs : list rect) : NoDup (map (cells n) rs) -> NoDup rs.
Proof. apply NoDup_map_inv. Qed.
Section Fit.
Variables (ax ay : axis) (cx cy : option (list xval)) (pre_x pre_y : list sample2 -> list Z) (grow : list sample2 -> tree) (g : size_cfg) (c : cfg2)
  (solver : nat -> nat -> rdata -> list Q -> list Z -> option (list bool)) (P0 : nat -> list nat) (data : list sample2) (f : fitted2).
Hypothesis Hfit : fit2_cart ax ay cx cy pre_x pre_y grow g solver P0 data = Ok f.
Hypothesis Hsolver : sound_solver2 c solver.
Hypothesis HP0 : forall k, length (P0 k) = k.
Let clean := filter (clean2 cx cy) data.
Let sx := pre_x clean. Let sy := pre_y clean.
Let n := S (length sx). Let m := S (length sy).
Let fne := matrix ax ay sx sy true clean. Let fe := matrix ax ay sx sy false clean.
Lemma fit2_cart_unpack : exists srs,
  valid_cart m n c (q_of fe fne n) srs /\ (forall r, In r srs -> candidate m n (grow clean) (admissible g fe fne) r) /\
  fit_of sx sy fe fne srs (target_info2 (filter (special2 cx cy) data)) (target_info2 (filter missing2 data)) f /\
  grow clean <> Leaf /\ same_lengths (cart_rows m n (grow clean) (P0 (m * n)) (admissible g fe fne)) = false.
Proof.
  unfold fit2_cart in Hfit. fold clean in Hfit. fold sx sy in Hfit. fold n m in Hfit. fold fne fe in Hfit.
  assert (Hn : 0 < n) by (unfold n; lia).
  destruct (cart_rects m n (grow clean) (P0 (m * n)) (admissible g fe fne) Hn (HP0 _)) as (rs & Ers & Hrs).
  assert (Hok : forall r, In r rs -> rect_ok m n r) by (intros r Hr; apply (Hrs r Hr)).
  set (rd := cart_rdata m n (grow clean) (P0 (m * n)) (admissible g fe fne)).
  assert (E : grow clean <> Leaf /\ match solver m n rd (rates_of fe fne (rd_rows rd)) (records_of fe fne (rd_rows rd)) with
      | Some sol => finish2 n sx sy fe fne (rd_rows rd) sol (P0 (m * n)) (target_info2 (filter (special2 cx cy) data)) (target_info2 (filter missing2 data))
      | None => Err OtherError end = Ok f).
  { unfold rd. destruct (grow clean) as [|b thr l r]; [discriminate|]. split; [discriminate|exact Hfit]. }
  destruct E as [Hleaf E]. destruct (solver m n _ _ _) as [sol|] eqn:Es; [|discriminate]. apply Hsolver in Es.
  unfold rd, cart_rdata in Es. rewrite Ers in Es. unfold rd, cart_rdata in E. cbn [rd_rows] in E, Es. rewrite Ers in E.
  assert (Er : rates_of fe fne (map (cells n) rs) = map (q_of fe fne n) rs) by (unfold rates_of; now rewrite map_map).
  rewrite Er in Es. pose proof (k_valid m n rs Hok c (q_of fe fne n) _ sol Hn Es) as HV.
  exists (select sol rs). split; [exact HV|]. split; [intros r Hr; apply Hrs; eapply select_In'; eauto|]. split; [|split; [exact Hleaf|]].
  - apply (finish2_fit sx sy fe fne rs sol (P0 (m * n))); [exact (proj1 HV)|apply HP0|exact E].
  - rewrite Ers. unfold finish2 in E. destruct (same_lengths (map (cells n) rs)) eqn:Esl; [|reflexivity]. exfalso.
    destruct (length (select sol (map (cells n) rs))) as [|k] eqn:El; [|discriminate].
    rewrite select_map, map_length in El. destruct (proj2 (proj1 HV) 0 0 ltac:(unfold m; lia) ltac:(unfold n; lia)) as (b & r & Hb & _).
    assert (b < 0); [|lia]. rewrite <- El. apply nth_error_Some. congruence.
Qed.
End Fit.
Section Fit3.
Variables (ax ay : axis) (cx cy : option (list xval)) (pre_x pre_y : list sample3 -> list Z) (grow : list sample3 -> tree) (g : size_cfg) (c : cfg2)
  (solver : nat -> nat -> rdata -> list Q -> list Z -> option (list bool)) (P0 : nat -> list nat) (data : list sample3) (f : fitted3).
Hypothesis Hfit : fit3_cart ax ay cx cy pre_x pre_y grow g solver P0 data = Ok f.
Hypothesis Hsolver : sound_solver2 c solver.
Hypothesis HP0 : forall k, length (P0 k) = k.
Let clean := filter (clean3 cx cy) data.
Let sx := pre_x clean. Let sy := pre_y clean.
Let n := S (length sx). Let m := S (length sy).
Let fr := matrix3 ax ay sx sy one3 clean. Let fs := matrix3 ax ay sx sy c_z clean. Let fss := matrix3 ax ay sx sy sq3 clean.
Let spec := filter (special3 cx cy) data. Let miss := filter missing3 data.
Lemma fit3_cart_unpack : exists srs,
  valid_cart m n c (q3 fr fs n) srs /\ (forall r, In r srs -> candidate m n (grow clean) (admissible_cont g fr) r) /\
  fit_of sx sy fs fr srs (info3 spec) (info3 miss) (k_fit f) /\
  k_var f = map (fun r => var_of fr fs fss (cells n r)) srs ++ [np_var (map c_z spec); np_var (map c_z miss)].
Proof.
  unfold fit3_cart in Hfit. fold clean in Hfit. fold sx sy in Hfit. fold n m in Hfit. fold fr fs fss in Hfit. fold spec miss in Hfit.
  assert (Hn : 0 < n) by (unfold n; lia).
  destruct (cart_rects m n (grow clean) (P0 (m * n)) (admissible_cont g fr) Hn (HP0 _)) as (rs & Ers & Hrs).
  assert (Hok : forall r, In r rs -> rect_ok m n r) by (intros r Hr; apply (Hrs r Hr)).
  set (rd := cart_rdata m n (grow clean) (P0 (m * n)) (admissible_cont g fr)).
  assert (E : match solver m n rd (means_of fr fs (rd_rows rd)) (map (cell_sum fr) (rd_rows rd)) with
      | Some sol => rbind (finish2 n sx sy fs fr (rd_rows rd) sol (P0 (m * n)%nat) (info3 spec) (info3 miss)) (fun f =>
          Ok {| k_fit := f; k_var := map (var_of fr fs fss) (t_rows f) ++ [np_var (map c_z spec); np_var (map c_z miss)] |})
      | None => Err OtherError end = Ok f).
  { unfold rd. destruct (grow clean) as [|b thr l r]; [discriminate|]. exact Hfit. }
  destruct (solver m n _ _ _) as [sol|] eqn:Es; [|discriminate]. apply Hsolver in Es.
  unfold rd, cart_rdata in Es. rewrite Ers in Es. unfold rd, cart_rdata in E. cbn [rd_rows] in E, Es. rewrite Ers in E.
  assert (Er : means_of fr fs (map (cells n) rs) = map (q3 fr fs n) rs) by (unfold means_of; now rewrite map_map).
  rewrite Er in Es. pose proof (k_valid m n rs Hok c (q3 fr fs n) _ sol Hn Es) as HV.
  destruct (finish2 n sx sy fs fr (map (cells n) rs) sol (P0 (m * n)) (info3 spec) (info3 miss)) as [f0|] eqn:Ef; [|discriminate].
  cbn [rbind] in E. injection E as <-. cbn [k_fit k_var].
  assert (HF := finish2_fit sx sy fs fr rs sol (P0 (m * n)) _ _ f0 (proj1 HV) (HP0 _) Ef).
  exists (select sol rs). split; [exact HV|]. split; [intros r Hr; apply Hrs; eapply select_In'; eauto|]. split; [exact HF|].
  rewrite (fo_rows _ _ _ _ _ _ _ _ HF), map_map. reflexivity.
Qed.
End Fit3.

Lemma digitize_mono_le s a b : nondecreasing s -> (a <= b)%Z -> digitize s a <= digitize s b.
Proof.
  induction s as [|c r IH]; intros Hn Hab; cbn; [lia|]. apply nondecr_inv in Hn as [Hr _]. specialize (IH Hr Hab).
  destruct (c <=? a)%Z eqn:E1, (c <=? b)%Z eqn:E2; lia.
Qed.
Lemma digitize_split : forall s i e, increasing s -> nth_error s i = Some e -> digitize s e = S i.
Proof.
  induction s as [|c r IH]; intros i e Hs Hi; [now destruct i|]. pose proof (incr_nondecr _ Hs) as Hn. apply nondecr_inv in Hn as [Hn Hc].
  assert (Hr : increasing r) by (now inversion Hs). assert (Hlt : forall y, In y r -> (c < y)%Z).
  { inversion Hs as [|? ? _ H]. apply Forall_forall. exact H. }
  destruct i as [|i]; cbn [nth_error] in Hi; cbn.
  - injection Hi as <-. rewrite Z.leb_refl. f_equal. now apply digitize_all_gt.
  - rewrite (IH i e Hr Hi). pose proof (Hlt e (nth_error_In _ _ Hi)). destruct (c <=? e)%Z eqn:E; lia.
Qed.
