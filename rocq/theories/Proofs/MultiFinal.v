(** Multiclass target: the table counts the records of every class, class trends, completeness. *)
From Coq Require Import List ZArith Bool Arith Lia Sorting.
From Verif Require Import Model.Arr Model.Core Model.CP Model.Multi Spec.CoreSpec Spec.CPSpec Spec.CPFitSpec Spec.MultiSpec
  Proofs.ArrP Proofs.CoreP Proofs.FitP Proofs.CoreFinal Proofs.CPP Proofs.CPC Proofs.CPTable Proofs.CPFinal Proofs.MultiP.
Import ListNotations.
Open Scope Z_scope.

Lemma filter_iff {A} (p q : A -> bool) l : (forall r, In r l -> (p r = true <-> q r = true)) -> filter p l = filter q l.
Proof.
  intros H. apply filter_ext_in. intros a Ha. specialize (H a Ha). destruct (p a), (q a); intuition congruence.
Qed.
Lemma is_class_iff cl r : is_class cl r = true <-> m_y r = Some cl.
Proof. unfold is_class. destruct (m_y r) as [y|]; [|split; discriminate]. rewrite Z.eqb_eq. split; congruence. Qed.

Lemma m_special_isin sp r : m_special sp r = isin (flat_codes sp) (m_x r).
Proof. unfold m_special. destruct sp; reflexivity. Qed.
Section Rows.
Variables (sp : special) (splits : list Z).
Hypothesis Hs : nondecreasing splits.
Hypothesis Hnan : ~ In XNaN (flat_codes sp).

Lemma row_bin r k : (k <= length splits)%nat -> m_y r <> None ->
  row_of splits sp (m_x r) k <-> m_clean sp r = true /\ digitize splits (num (m_x r)) = k.
Proof.
  intros Hk Hy. unfold m_clean, m_missing. rewrite m_special_isin. destruct (m_y r) as [y|]; [|congruence].
  destruct (m_x r) as [|z]; cbn [row_of x_isnull num orb negb andb].
  - split; [intros ->; lia|]. intros [H _]. discriminate.
  - rewrite negb_true_iff, <- not_true_iff_false, isin_In. split.
    + intros [(i & _ & E)|[Hc Hb]]; [lia|]. split; [exact Hc|]. eapply in_bin_unique; [exact Hs|apply digitize_in_bin; exact Hs|exact Hb].
    + intros [Hc <-]. right. split; [exact Hc|]. now apply digitize_in_bin.
Qed.
Lemma row_special r i : (i < n_special sp)%nat ->
  row_of splits sp (m_x r) (S (length splits) + i) <-> m_special sp r = true /\ special_index sp i (m_x r).
Proof.
  intros Hi. rewrite m_special_isin. destruct (m_x r) as [|z] eqn:Ex; cbn [row_of].
  - split; [lia|]. intros [H _]. apply isin_In in H. contradiction.
  - split.
    + intros [(j & Hj & E)|[Hc Hb]].
      * assert (j = i) by lia. subst j. split; [eapply special_index_in; exact Hj|exact Hj].
      * apply in_bin_i_lt in Hb. lia.
    + intros [_ H]. left. eauto.
Qed.
Lemma row_missing r : row_of splits sp (m_x r) (S (length splits) + n_special sp) <-> x_isnull (m_x r) = true.
Proof.
  destruct (m_x r) as [|z]; cbn [row_of x_isnull]; [tauto|]. split; [|discriminate].
  intros [(j & Hj & E)|[_ Hb]]; [apply special_index_lt in Hj; lia|]. apply in_bin_i_lt in Hb. lia.
Qed.
End Rows.

Lemma multi_table solver sp fixed user splits0 rs f :
  nondecreasing splits0 -> m_solver_ok solver -> ~ In XNaN (flat_codes sp) ->
  fit_multi solver sp fixed user splits0 rs = Some (Ok f) ->
  let n_rows := (S (length (mf_splits f)) + n_special sp + 1)%nat in
  increasing (mf_classes f) /\
  (forall cl, In cl (mf_classes f) <-> exists r, In r rs /\ m_y r = Some cl /\ m_x r <> XNaN /\ ~ In (m_x r) (flat_codes sp)) /\
  length (mf_cols f) = length (mf_classes f) /\
  forall c cl, nth_error (mf_classes f) c = Some cl ->
    nondecreasing (mf_splits f) /\
    exists col, nth_error (mf_cols f) c = Some col /\ length col = n_rows /\
    forall k p, (k < n_rows)%nat -> (forall r, p r = true <-> m_y r = Some cl /\ row_of (mf_splits f) sp (m_x r) k) ->
      nth_error col k = Some (Z.of_nat (length (filter p rs))).
Proof.
  intros Hs Hok Hnan Hf n_rows. apply fit_multi_inv in Hf. rename Hf into F.
  split; [rewrite (mm_classes _ _ _ _ _ F); apply np_unique_sorted|].
  split.
  { intros cl. rewrite (mm_classes _ _ _ _ _ F). unfold m_classes. rewrite np_unique_In, in_map_iff. split.
    - intros (r & El & Hr). apply filter_In in Hr. destruct Hr as [Hr Hc]. exists r. split; [exact Hr|].
      unfold m_clean, m_missing in Hc. rewrite m_special_isin in Hc. unfold m_label in El.
      apply andb_true_iff in Hc. destruct Hc as [H1 H2]. apply negb_true_iff, orb_false_iff in H1. destruct H1 as [H1 H3].
      destruct (m_y r); [|discriminate]. split; [congruence|]. split; [intros E; now rewrite E in H1|].
      intros Hin. apply isin_In in Hin. now rewrite Hin in H2.
    - intros (r & Hr & Hy & Hx & Hn). exists r. unfold m_label. rewrite Hy. split; [reflexivity|].
      apply filter_In. split; [exact Hr|]. unfold m_clean, m_missing. rewrite m_special_isin, Hy.
      destruct (m_x r) as [|z]; [congruence|]. cbn [x_isnull orb negb andb]. apply negb_true_iff, not_true_iff_false.
      rewrite isin_In. exact Hn. }
  split; [exact (mm_ncols _ _ _ _ _ F)|].
  intros c cl Hc. destruct (multi_column solver sp splits0 rs f c cl F Hs Hok Hc) as [Hn E].
  split; [exact Hn|]. eexists. split; [exact E|].
  assert (L1 : length (clean_col sp (mf_splits f) rs cl) = S (length (mf_splits f))) by apply length_counts.
  assert (L2 : length (special_col sp (filter (m_special sp) rs) cl) = n_special sp)
    by (unfold special_col, n_special; destruct sp; cbn [length]; auto; now rewrite map_length).
  split; [rewrite !app_length, L1, L2; cbn [length]; unfold n_rows; lia|].
  intros k p Hk Hp.
  destruct (Nat.lt_ge_cases k (S (length (mf_splits f)))) as [H1|H1].
  - rewrite nth_error_app1 by lia. unfold clean_col, counts. rewrite nth_error_map, (nth_error_nth' _ 0%nat) by (rewrite seq_length; lia).
    rewrite seq_nth by lia. cbn [option_map Nat.add]. f_equal. rewrite ovr_count. f_equal. f_equal. unfold m_cleans. rewrite filter_filter.
    apply filter_iff. intros r _. rewrite Hp, !andb_true_iff, is_class_iff, Nat.eqb_eq. split.
    + intros [Hc1 [Hy Hd]]. split; [exact Hy|]. apply row_bin; try assumption; [lia|congruence|]. now split.
    + intros [Hy Hrow]. apply row_bin in Hrow; try assumption; [|lia|congruence]. tauto.
  - rewrite nth_error_app2 by lia. rewrite L1.
    destruct (Nat.lt_ge_cases k (S (length (mf_splits f)) + n_special sp)) as [H2|H2].
    + rewrite nth_error_app1 by lia. set (i := (k - S (length (mf_splits f)))%nat).
      assert (Ek : k = (S (length (mf_splits f)) + i)%nat) by lia. assert (Hi : (i < n_special sp)%nat) by lia.
      assert (G : forall q, (forall r, q r = true <-> special_index sp i (m_x r)) ->
        Some (class_count cl (filter q (filter (m_special sp) rs))) = Some (Z.of_nat (length (filter p rs)))).
      { intros q Hq. rewrite class_count_filter, !filter_filter. do 3 f_equal. apply filter_iff. intros r _.
        rewrite Hp, !andb_true_iff, is_class_iff, Hq, Ek, row_special by assumption. tauto. }
      unfold special_col, n_special in *. clear H2 Hk. destruct sp as [|l|d].
      * assert (i = 0)%nat by lia. rewrite H in *. cbn [nth_error]. rewrite <- (G (fun _ => false)).
        -- f_equal. f_equal. clear. induction rs as [|r rs IH]; [reflexivity|]. cbn [filter m_special]. exact IH.
        -- intros r. cbn [special_index]. split; [discriminate|tauto].
      * assert (i = 0)%nat by lia. rewrite H in *. cbn [nth_error]. rewrite <- (G (fun r => isin l (m_x r))).
        -- f_equal. f_equal. rewrite filter_filter. apply filter_ext. intros r. cbn [m_special flat_codes]. now rewrite andb_diag.
        -- intros r. cbn [special_index]. rewrite isin_In. tauto.
      * rewrite nth_error_map. destruct (nth_error d i) as [kv|] eqn:Ed; [|apply nth_error_None in Ed; lia].
        cbn [option_map]. apply G. intros r. cbn [special_index]. rewrite Ed, isin_In. split; [eauto|].
        intros (kv' & E' & Hin). congruence.
    + rewrite nth_error_app2 by lia. rewrite L2.
      assert (Ek : k = (S (length (mf_splits f)) + n_special sp)%nat) by (unfold n_rows in Hk; lia).
      replace (k - S (length (mf_splits f)) - n_special sp)%nat with 0%nat by lia. cbn [nth_error].
      rewrite class_count_filter, filter_filter. do 3 f_equal. apply filter_iff. intros r _.
      rewrite Hp, andb_true_iff, is_class_iff, Ek, row_missing. unfold m_missing. rewrite orb_true_iff.
      destruct (m_y r); intuition congruence.
Qed.

(** * Class rows *)
(** records of a prebin: those of the class and of the others, or all classes together *)
Lemma class_total classes data dig k : NoDup classes -> (forall r, In r data -> exists y, m_y r = Some y /\ In y classes) ->
  zsum (map (fun cl => bin_count 1 dig false (one_vs_rest cl data) k) classes)
  = Z.of_nat (length (filter (fun r => Nat.eqb (dig (num (m_x r))) k) data)).
Proof.
  intros Hnd. induction data as [|r data IH]; intros Hin.
  - cbn [filter length]. transitivity (zsum (map (fun _ => 0) classes)); [|apply zsum_zero].
    apply zsum_map_ext. intros. now rewrite ovr_count.
  - rewrite (zsum_map_ext _ (fun cl => bin_count 1 dig false (one_vs_rest cl data) k +
        (if is_class cl r && Nat.eqb (dig (num (m_x r))) k then 1 else 0))).
    + rewrite zsum_map_plus, IH by (intros; apply Hin; now right). cbn [filter].
      destruct (Hin r (or_introl eq_refl)) as (y & Ey & Hy). unfold is_class. rewrite Ey.
      destruct (Nat.eqb _ k); cbn [length].
      * assert (E : zsum (map (fun cl => if (y =? cl) && true then 1 else 0) classes) = 1); [|lia].
        clear -Hnd Hy. induction Hnd as [|a l Ha Hnd IH]; [destruct Hy|]. cbn [map zsum].
        destruct (Z.eqb_spec y a) as [->|Hne]; cbn [andb].
        -- assert (Z0 : zsum (map (fun cl => if (a =? cl) && true then 1 else 0) l) = 0); [|lia].
           transitivity (zsum (map (fun _ => 0) l)); [|apply zsum_zero]. apply zsum_map_ext. intros b Hb.
           destruct (Z.eqb_spec a b) as [->|]; [contradiction|reflexivity].
        -- rewrite IH; [reflexivity|]. destruct Hy; [congruence|assumption].
      * assert (E : zsum (map (fun cl => if (y =? cl) && false then 1 else 0) classes) = 0); [|lia].
        transitivity (zsum (map (fun _ => 0) classes)); [|apply zsum_zero]. apply zsum_map_ext. intros. now rewrite andb_false_r.
    + intros cl _. rewrite !ovr_count. cbn [filter]. destruct (is_class cl r && _); cbn [length]; lia.
Qed.
Lemma class_two cl data dig k :
  bin_count 1 dig true (one_vs_rest cl data) k + bin_count 1 dig false (one_vs_rest cl data) k
  = Z.of_nat (length (filter (fun r => Nat.eqb (dig (num (m_x r))) k) data)).
Proof.
  rewrite ovr_count, ovr_count0. induction data as [|r l IH]; [reflexivity|]. cbn [filter].
  destruct (is_class cl r), (Nat.eqb _ k); cbn [negb andb length]; lia.
Qed.

Lemma clean_label sp rs r : In r (m_cleans sp rs) -> exists y, m_y r = Some y /\ In y (m_classes sp rs).
Proof.
  intros H. assert (Hy : m_y r <> None).
  { apply filter_In in H. destruct H as [_ H]. unfold m_clean, m_missing in H. destruct (m_y r); [discriminate|].
    rewrite orb_true_r in H. discriminate. }
  destruct (m_y r) as [y|] eqn:E; [|congruence]. exists y. split; [reflexivity|].
  unfold m_classes. apply np_unique_In, in_map_iff. exists r. split; [unfold m_label; now rewrite E|exact H].
Qed.

Lemma nth_seq_map {A} (F : nat -> A) n k d : (k < n)%nat -> nth k (map F (seq 0 n)) d = F k.
Proof. intros H. rewrite (nth_indep _ d (F 0%nat)) by (rewrite map_length, seq_length; exact H). rewrite map_nth, seq_nth by exact H. reflexivity. Qed.

(** class_rows of the table are the one-vs-rest counts of the bins *)
Lemma class_rows_counts solver sp splits0 rs f c cl : multi_fit solver sp splits0 rs f ->
  nondecreasing splits0 -> m_solver_ok solver -> nth_error (mf_classes f) c = Some cl ->
  let n := S (length (mf_splits f)) in
  class_rows f c = combine (counts 1 (digitize (mf_splits f)) true (one_vs_rest cl (m_cleans sp rs)) n)
                           (counts 1 (digitize (mf_splits f)) false (one_vs_rest cl (m_cleans sp rs)) n).
Proof.
  intros F Hs Hok Hc n. unfold class_rows, counts. fold n.
  assert (E : forall k, (k < n)%nat -> row_total f k = Z.of_nat (length (filter (fun r => Nat.eqb (digitize (mf_splits f) (num (m_x r))) k) (m_cleans sp rs)))).
  { intros k Hk. rewrite <- (class_total (m_classes sp rs)); [|apply increasing_NoDup, np_unique_sorted|apply clean_label].
    unfold row_total. f_equal. apply nth_error_ext. intros i. rewrite !nth_error_map, <- (mm_classes _ _ _ _ _ F).
    destruct (nth_error (mf_classes f) i) as [cl'|] eqn:Ei.
    - destruct (multi_column solver sp splits0 rs f i cl' F Hs Hok Ei) as [_ Ecol]. rewrite Ecol. cbn [option_map]. f_equal.
      rewrite app_nth1 by (unfold clean_col; rewrite length_counts; exact Hk). unfold clean_col, counts. rewrite nth_seq_map by exact Hk. reflexivity.
    - apply nth_error_None in Ei. rewrite <- (mm_ncols _ _ _ _ _ F) in Ei. apply nth_error_None in Ei. now rewrite Ei. }
  assert (E2 : forall k, (k < n)%nat -> cell f k c = bin_count 1 (digitize (mf_splits f)) false (one_vs_rest cl (m_cleans sp rs)) k).
  { intros k Hk. destruct (multi_column solver sp splits0 rs f c cl F Hs Hok Hc) as [_ Ecol]. unfold cell.
    rewrite (nth_error_nth _ _ _ Ecol).
    rewrite app_nth1 by (unfold clean_col; rewrite length_counts; exact Hk). unfold clean_col, counts. rewrite nth_seq_map by exact Hk. reflexivity. }
  assert (G : forall l, (forall k, In k l -> (k < n)%nat) -> map (fun k => (row_total f k - cell f k c, cell f k c)) l
     = combine (map (bin_count 1 (digitize (mf_splits f)) true (one_vs_rest cl (m_cleans sp rs))) l)
               (map (bin_count 1 (digitize (mf_splits f)) false (one_vs_rest cl (m_cleans sp rs))) l)).
  { induction l as [|k l IH]; intros Hl; [reflexivity|]. cbn [map combine].
    rewrite IH by (intros; apply Hl; now right). f_equal. assert (Hk : (k < n)%nat) by (apply Hl; now left).
    rewrite E, E2 by exact Hk. rewrite <- (class_two cl). f_equal. lia. }
  apply G. intros k Hk. apply in_seq in Hk. lia.
Qed.

(** * Trends *)
(** the single-class constraint model *)
Definition class_cfg (g : mc_cfg) (t : trend) (c : list Z * list Z) (M : Z) : cp_cfg :=
  {| g_trend := match t with TAscending | TDescending | TPeak | TValley => t | _ => TNone end;
     g_min_bins := mg_min_bins g; g_max_bins := mg_max_bins g;
     g_min_size := None; g_max_size := None; g_min_ne := None; g_max_ne := None; g_min_e := None; g_max_e := None;
     g_md0 := md_is0 (mg_md g); g_fixed := mg_fixed g;
     g_pviol := pviol_of (mg_pol g) (mg_test g) (fst c) (snd c); g_dviol := dviol_of (mg_md g) M (fst c) (snd c) |}.
Lemma class_trend_cfg n D M g t c X : m_trend n D M (md_is0 (mg_md g)) t X <-> trend_constr n D M (class_cfg g t c M) X.
Proof. unfold m_trend, trend_constr, class_cfg. cbn [g_trend g_md0]. destruct t; tauto. Qed.
Lemma class_feasible n M g X t c ne ev : c = (ne, ev) ->
  bool_vars n X -> unique_assignment n X -> continuity n X ->
  min_max_bins n (mg_min_bins g) (mg_max_bins g) X -> fixed_splits n (mg_fixed g) X ->
  class_constr n M g X t c -> feasible n (rate_mat M ne ev) M (at0 ne) (at0 ev) (class_cfg g t c M) X.
Proof.
  intros -> H1 H2 H3 H4 H5 (T & P & D). cbn [fst snd] in *.
  unfold feasible. repeat (split; [assumption|]).
  split; [exact I|]. split; [intros i _; split; intros ? [=]|]. split; [intros i _; split; intros ? [=]|].
  split; [now apply class_trend_cfg|]. split; [exact P|]. split; [exact D|]. exact H5.
Qed.

Lemma multi_groups_s solver sp fixed user splits0 rs f X :
  nondecreasing splits0 -> m_solver_ok solver ->
  fit_multi solver sp fixed user splits0 rs = Some (Ok f) -> mp_splits (mf_prebins f) <> [] ->
  solver (mp_cols (mf_prebins f)) = solution_vector (S (length (mp_splits (mf_prebins f)))) (Solved X) ->
  structural (S (length (mp_splits (mf_prebins f)))) X ->
  exists gs, let n := S (length (mp_splits (mf_prebins f))) in
  partition n gs /\ describes n gs X /\ length gs = S (length (mf_splits f)) /\
  (forall i s, nth_error (mp_splits (mf_prebins f)) i = Some s -> (exists a, In (a, i) gs) -> In s (mf_splits f)) /\
  forall c cl, nth_error (mf_classes f) c = Some cl -> exists ne ev,
    nth_error (mp_cols (mf_prebins f)) c = Some (ne, ev) /\ length ne = n /\ length ev = n /\
    pos_list ne /\ pos_list ev /\ class_rows f c = rows_of ne ev gs.
Proof.
  intros Hs Hok Hf Hne Hsol HS. apply fit_multi_inv in Hf. rename Hf into F.
  set (n := S (length (mp_splits (mf_prebins f)))) in *.
  destruct (structural_partition n X ltac:(unfold n; lia) HS) as (gs & Hp & Hr).
  destruct (last_solution n gs X ltac:(unfold n; lia) Hp Hr) as (Hlast & Hlsol & Hcnt).
  destruct (mm_sol _ _ _ _ _ F Hne) as [Es Eo]. rewrite Hsol in Es.
  assert (Hlen : length (mf_splits f) = (length gs - 1)%nat).
  { rewrite Eo, Es, length_select by (rewrite length_init, Hlsol; unfold n; lia).
    assert (C : count_true (solution_vector n (Solved X)) = S (count_true (init (solution_vector n (Solved X))))).
    { apply count_true_init; [|exact Hlast]. intros E0. rewrite E0 in Hlsol. unfold n in Hlsol. cbn in Hlsol. lia. }
    rewrite Hcnt in C. lia. }
  assert (Hgs : (0 < length gs)%nat) by (destruct gs; [inversion Hp; unfold n in *; lia|cbn; lia]).
  exists gs. cbv zeta. fold n. split; [exact Hp|]. split; [exact Hr|]. split; [lia|]. split.
  - intros i s Hi Hex. rewrite Eo, Es.
    assert (Hnth : nth_error (init (solution_vector n (Solved X))) i = Some true).
    { assert (Hil : (i < length (mp_splits (mf_prebins f)))%nat) by (apply nth_error_Some; congruence).
      rewrite nth_error_init by (rewrite Hlsol; unfold n; lia). apply (sol_nth n gs X ltac:(unfold n; lia) Hp Hr); [unfold n; lia|exact Hex]. }
    revert Hnth Hi. generalize (init (solution_vector n (Solved X))) (mp_splits (mf_prebins f)). clear. intros m l. revert m i.
    induction l as [|x l IH]; intros [|b m] [|i]; cbn; try discriminate.
    + intros E1 E2. injection E1 as ->. injection E2 as ->. now left.
    + intros E1 E2. specialize (IH _ _ E1 E2). destruct b; [now right|exact IH].
  - intros c cl Hc.
    pose proof (rm_cols _ _ _ _ (mm_refined _ _ _ _ _ F) Hne) as Ecols.
    assert (Hc' : nth_error (m_classes sp rs) c = Some cl) by (rewrite <- (mm_classes _ _ _ _ _ F); exact Hc).
    pose proof (nth_class_cols (mp_splits (mf_prebins f)) (m_classes sp rs) (m_cleans sp rs) c cl Hc') as Ec. rewrite <- Ecols in Ec.
    eexists _, _. split; [exact Ec|]. rewrite !length_counts. split; [reflexivity|]. split; [reflexivity|].
    assert (P : forall b, pos_list (counts 1 (digitize (mp_splits (mf_prebins f))) b (one_vs_rest cl (m_cleans sp rs)) n)).
    { intros b a Ha. assert (a <> 0).
      { eapply (rm_nz _ _ _ _ (mm_refined _ _ _ _ _ F)); [eapply nth_error_In; exact Ec|]. cbn [fst snd]. destruct b; auto. }
      assert (0 <= a); [|lia]. unfold counts in Ha. apply in_map_iff in Ha. destruct Ha as (i & <- & _).
      apply bin_count_nonneg; [lia|]. intros s Hsx. unfold one_vs_rest in Hsx. apply in_map_iff in Hsx. destruct Hsx as (r & <- & _). cbn. lia. }
    split; [apply P|]. split; [apply P|].
    rewrite (class_rows_counts solver sp splits0 rs f c cl F Hs Hok Hc).
    assert (Hnp : nondecreasing (mp_splits (mf_prebins f))) by (eapply subseq_nondecr; [apply (rm_sub _ _ _ _ (mm_refined _ _ _ _ _ F))|exact Hs]).
    assert (MM : forall b, counts 1 (digitize (mf_splits f)) b (one_vs_rest cl (m_cleans sp rs)) (S (length (mf_splits f)))
       = map (gsum (counts 1 (digitize (mp_splits (mf_prebins f))) b (one_vs_rest cl (m_cleans sp rs)) n)) gs).
    { intros b. pose proof (merge_counts_digitize b (one_vs_rest cl (m_cleans sp rs)) (mp_splits (mf_prebins f)) (solution_vector n (Solved X)) Hnp Hlsol Hlast) as E1.
      cbv zeta in E1. rewrite <- Es, <- Eo in E1. rewrite Es in E1.
      rewrite (merge_solution n gs X) in E1; [|exact Hp|exact Hr|apply length_counts]. injection E1 as E1. symmetry. exact E1. }
    rewrite !MM. unfold rows_of. clear. induction gs as [|g0 gs IH]; [reflexivity|]. cbn [map combine]. now rewrite IH.
Qed.

Lemma multi_groups solver sp fixed user splits0 rs f M g X :
  nondecreasing splits0 -> m_solver_ok solver ->
  fit_multi solver sp fixed user splits0 rs = Some (Ok f) -> m_solved f solver M g X ->
  exists gs, let n := S (length (mp_splits (mf_prebins f))) in
  partition n gs /\ describes n gs X /\ length gs = S (length (mf_splits f)) /\
  (forall i s, nth_error (mp_splits (mf_prebins f)) i = Some s -> (exists a, In (a, i) gs) -> In s (mf_splits f)) /\
  forall c cl, nth_error (mf_classes f) c = Some cl -> exists ne ev,
    nth_error (mp_cols (mf_prebins f)) c = Some (ne, ev) /\ length ne = n /\ length ev = n /\
    pos_list ne /\ pos_list ev /\ class_rows f c = rows_of ne ev gs.
Proof.
  intros Hs Hok Hf (Hne & Hsol & HF). apply (multi_groups_s solver sp fixed user splits0 rs f X Hs Hok Hf Hne Hsol).
  destruct HF as (A & B & C & _); repeat split; assumption.
Qed.

Lemma Forall2_len {A B} (R : A -> B -> Prop) a b : Forall2 R a b -> length a = length b.
Proof. induction 1; cbn; congruence. Qed.
Lemma multi_trends solver sp fixed user splits0 rs f M g X :
  nondecreasing splits0 -> m_solver_ok solver -> 0 < M ->
  fit_multi solver sp fixed user splits0 rs = Some (Ok f) -> m_solved f solver M g X ->
  within (mg_min_bins g) (mg_max_bins g) (Z.of_nat (S (length (mf_splits f)))) /\
  length (mg_trends g) = length (mf_classes f) /\
  forall c t, nth_error (mg_trends g) c = Some t ->
    m_trend_holds M t (class_rows f c) /\
    pvalue_ok (mg_pol g) (mg_test g) (class_rows f c) /\
    (forall k, mg_md g = Some k -> neighbours (apart_res M k) (class_rows f c)).
Proof.
  intros Hs Hok HM Hf HX. destruct (multi_groups _ _ _ _ _ _ _ _ _ _ Hs Hok Hf HX) as (gs & Hp & Hr & Hlg & _ & Hcls). cbv zeta in *.
  set (n := S (length (mp_splits (mf_prebins f)))) in *. assert (Hn : (0 < n)%nat) by (unfold n; lia).
  destruct HX as (Hne & Hsol & (B1 & B2 & B3 & B4 & B5 & B6)). fold n in B1, B2, B3, B4, B5, B6.
  split; [rewrite <- Hlg; now apply (min_max_bins_iff _ _ _ Hn Hp Hr)|].
  assert (Lt : length (mg_trends g) = length (mf_classes f)).
  { apply Forall2_len in B5. rewrite B5. pose proof (fit_multi_inv _ _ _ _ _ _ _ Hf) as F.
    rewrite (rm_cols _ _ _ _ (mm_refined _ _ _ _ _ F) Hne), (mm_classes _ _ _ _ _ F). unfold class_cols. now rewrite map_length. }
  split; [exact Lt|].
  intros c t Ht.
  assert (Hc : exists cl, nth_error (mf_classes f) c = Some cl).
  { destruct (nth_error (mf_classes f) c) eqn:E; [eauto|]. apply nth_error_None in E.
    assert (c < length (mg_trends g))%nat by (apply nth_error_Some; congruence). lia. }
  destruct Hc as (cl & Hc). destruct (Hcls c cl Hc) as (ne & ev & Ec & L1 & L2 & P1 & P2 & ER).
  assert (HC : class_constr n M g X t (ne, ev)).
  { clear -B5 Ht Ec. revert c Ht Ec. induction B5 as [|a b la lb H B IH]; intros [|c] Ha Hb; cbn in *; try discriminate.
    - injection Ha as ->. injection Hb as ->. exact H.
    - eauto. }
  pose proof (class_feasible n M g X t (ne, ev) ne ev eq_refl B1 B2 B3 B4 B6 HC) as FX.
  rewrite <- L1 in *. assert (L3 : length ne = length ev) by lia. rewrite ER.
  split; [|split].
  - destruct t; cbn [m_trend_holds]; try exact I.
    + eapply (sound_asc ne ev M _ X gs Hn L3 Hp Hr FX HM P1 P2). reflexivity.
    + eapply (sound_desc ne ev M _ X gs Hn L3 Hp Hr FX HM P1 P2). reflexivity.
    + eapply (sound_peak ne ev M _ X gs Hn L3 Hp Hr FX HM P1 P2). left. reflexivity.
    + eapply (sound_valley ne ev M _ X gs Hn L3 Hp Hr FX HM P1 P2). left. reflexivity.
  - destruct HC as (_ & HP & _). cbn [fst snd] in HP. apply (pvalue_iff (mg_pol g) (mg_test g) ne ev gs X) in HP; auto.
  - intros k Ek. destruct HC as (_ & _ & HD). cbn [fst snd] in HD. rewrite Ek in HD.
    apply (min_diff_sound ne ev gs M k X) in HD; auto.
Qed.

(** * Completeness and objective *)
Lemma multi_complete n M cols g X gs : (0 < n)%nat -> 0 < M ->
  (forall c, In c cols -> length (fst c) = n /\ length (snd c) = n /\ pos_list (fst c) /\ pos_list (snd c)) ->
  partition n gs -> describes n gs X ->
  (md_is0 (mg_md g) = true -> Forall (fun t => t <> TAscending /\ t <> TDescending) (mg_trends g)) ->
  within (mg_min_bins g) (mg_max_bins g) (Z.of_nat (length gs)) ->
  (forall f i, mg_fixed g = Some f -> (i < n - 1)%nat -> nth_error f i = Some true -> exists s, In (s, i) gs) ->
  Forall2 (fun t c => trend_met t (rows_of (fst c) (snd c) gs) /\
     pvalue_ok (mg_pol g) (mg_test g) (rows_of (fst c) (snd c) gs) /\
     (forall k, mg_md g = Some k -> neighbours (apart M k) (rows_of (fst c) (snd c) gs))) (mg_trends g) cols ->
  m_feasible n M cols g X.
Proof.
  intros Hn HM Hc Hp Hr Hmd Hb Hfx HF.
  assert (HS : structural n X) by (eapply represents_structural; eauto).
  destruct HS as (B1 & B2 & B3). unfold m_feasible. repeat (split; [assumption|]).
  split; [now apply (min_max_bins_iff _ _ _ Hn Hp Hr)|].
  split; [|now apply (fixed_iff _ _ _ Hn Hp Hr)].
  assert (G : Forall (fun t => md_is0 (mg_md g) = true -> t <> TAscending /\ t <> TDescending) (mg_trends g)).
  { destruct (md_is0 (mg_md g)); [|apply Forall_forall; intros; discriminate].
    specialize (Hmd eq_refl). rewrite Forall_forall in *. auto. }
  clear Hmd. revert G Hc. induction HF as [|t c ts cols (T & P & D) HF IH]; intros G Hc; constructor.
  - destruct (Hc c (or_introl eq_refl)) as (L1 & L2 & P1 & P2). inversion G as [|? ? G1 G2]; subst.
    destruct c as [ne ev]. cbn [fst snd] in *. unfold class_constr. cbn [fst snd]. split; [|split].
    + assert (TC : m_trend (length ne) (rate_mat M ne ev) M false t X).
      { set (g' := {| g_trend := t; g_min_bins := None; g_max_bins := None; g_min_size := None; g_max_size := None;
          g_min_ne := None; g_max_ne := None; g_min_e := None; g_max_e := None; g_md0 := false; g_fixed := None; g_pviol := []; g_dviol := [] |}).
        assert (H : trend_constr (length ne) (rate_mat M ne ev) M g' X) by (apply (trend_complete ne ev gs); auto; lia).
        unfold trend_constr in H. cbn [g' g_trend g_md0] in H. destruct t; cbn [m_trend]; auto. }
      destruct (md_is0 (mg_md g)) eqn:E; [|exact TC]. destruct (G1 eq_refl). destruct t; try congruence; exact TC.
    + apply (pvalue_iff (mg_pol g) (mg_test g) ne ev gs X); auto.
    + destruct (mg_md g) as [k|]; [|intros v []]. apply (min_diff_complete ne ev gs M k X); auto.
  - inversion G; subst. apply IH; auto. intros c' Hc'. apply Hc. now right.
Qed.
