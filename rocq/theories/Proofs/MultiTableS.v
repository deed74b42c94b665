(** Tables of fits: all cells of the bins are positive, so that the statistics of analysis() are defined. *)
From Coq Require Import List ZArith Bool Arith Lia Reals Lra.
From Verif Require Import Model.Arr Model.Core Model.CP Model.Multi Model.Metrics Model.MultiT Model.MultiTable
  Spec.CoreSpec Spec.CPSpec Spec.CPFitSpec Spec.MultiSpec Spec.MetricsSpec Spec.MultiTableSpec
  Proofs.ArrP Proofs.CoreP Proofs.FitP Proofs.CoreFinal Proofs.CPTable Proofs.MultiP Proofs.MultiFinal
  Proofs.MetricsP Proofs.MetricsQ Proofs.MultiTableP Proofs.MultiTableQ Proofs.MultiTableR.
Import ListNotations.
Open Scope Z_scope.

Lemma merge_loop_pos sol : forall n acc r, merge_loop acc sol n = Some r -> 0 <= acc -> pos_list n -> pos_list r.
Proof.
  induction sol as [|b s IH]; intros n acc r H Ha Hn; cbn [merge_loop] in H; [injection H as <-; intros x []|].
  destruct n as [|v n]; [discriminate|]. pose proof (Hn v (or_introl eq_refl)) as Hv.
  assert (Hn' : pos_list n) by (intros x Hx; apply Hn; now right).
  destruct b.
  - destruct (merge_loop 0 s n) as [r'|] eqn:E; [|discriminate]. injection H as <-. intros x [<-|Hx]; [lia|]. apply (IH n 0 r' E); [lia|assumption|assumption].
  - apply (IH n (acc + v) r H); [lia|assumption].
Qed.
Lemma pos_firstn n l : pos_list l -> pos_list (firstn n l).
Proof. intros H x Hx. apply H. rewrite <- (firstn_skipn n l). apply in_or_app. now left. Qed.
Lemma pos_skipn n l : pos_list l -> pos_list (skipn n l).
Proof. intros H x Hx. apply H. rewrite <- (firstn_skipn n l). apply in_or_app. now right. Qed.
Lemma zsum_pos l : pos_list l -> l <> [] -> 0 < zsum l.
Proof.
  intros H Hn. destruct l as [|a l]; [congruence|]. cbn [zsum]. pose proof (H a (or_introl eq_refl)).
  assert (0 <= zsum l); [|lia]. apply zsum_nonneg. intros x Hx. assert (0 < x) by (apply H; now right). lia.
Qed.

(** a table all of whose cells are positive *)
Definition all_pos (rows : nat) (cols : list (list Z)) : Prop :=
  cols <> [] /\ (0 < rows)%nat /\ forall col, In col cols -> length col = rows /\ pos_list col.
Lemma all_pos_ok rows cols : all_pos rows cols -> table_ok rows cols /\ (forall k, (k < rows)%nat -> (0 < row_sum cols k)%R).
Proof.
  intros (H1 & H2 & H3). split.
  - split; [exact H1|]. intros col Hc. destruct (H3 col Hc) as [L P]. split; [exact L|]. split.
    + intros x Hx. specialize (P x Hx). lia.
    + apply zsum_pos; [exact P|]. destruct col; [cbn in L; lia|discriminate].
  - intros k Hk. unfold row_sum. apply IZR_lt. apply zsum_pos.
    + intros x Hx. apply in_map_iff in Hx as (col & <- & Hc). destruct (H3 col Hc) as [L P]. apply P. unfold at_row. apply nth_In. lia.
    + intros E. apply map_eq_nil in E. auto.
Qed.
Lemma all_pos_pair rows cols i : all_pos rows cols -> (S i < rows)%nat -> all_pos 2 (map (fun col => firstn 2 (skipn i col)) cols).
Proof.
  intros (H1 & H2 & H3) Hi. split; [intros E; apply map_eq_nil in E; auto|]. split; [lia|].
  intros c Hc. apply in_map_iff in Hc as (col & <- & Hc). destruct (H3 col Hc) as [L P]. split.
  - rewrite firstn_length, skipn_length, L. lia.
  - now apply pos_firstn, pos_skipn.
Qed.

(** * Multiclass *)
Section Multi.
Variables (solver : list (list Z * list Z) -> list bool) (sp : special) (fixed : option (list bool)) (user : option (list Z))
  (splits0 : list Z) (rs : list mrec) (f : mfitted).
Hypothesis Hs : nondecreasing splits0.
Hypothesis Hok : m_solver_ok solver.
Hypothesis Hf : fit_multi solver sp fixed user splits0 rs = Some (Ok f).
Let F : multi_fit solver sp splits0 rs f := fit_multi_inv _ _ _ _ _ _ _ Hf.
Definition full_col (cl : Z) : list Z := clean_col sp (mf_splits f) rs cl ++ special_col sp (filter (m_special sp) rs) cl ++ [class_count cl (filter m_missing rs)].

Lemma cols_eq : mf_cols f = map full_col (mf_classes f).
Proof.
  apply nth_error_ext. intros c. rewrite nth_error_map. destruct (nth_error (mf_classes f) c) as [cl|] eqn:E.
  - exact (proj2 (multi_column _ _ _ _ _ _ _ F Hs Hok E)).
  - apply nth_error_None in E. rewrite <- (mm_ncols _ _ _ _ _ F) in E. now apply nth_error_None.
Qed.
Lemma special_len cl l : length (special_col sp l cl) = n_special sp.
Proof. destruct sp; cbn [special_col n_special length]; [reflexivity|reflexivity|apply map_length]. Qed.
Lemma full_len cl : length (full_col cl) = (S (length (mf_splits f)) + n_special sp + 1)%nat.
Proof. unfold full_col. rewrite !app_length, special_len. unfold clean_col. rewrite length_counts. cbn [length]. lia. Qed.
Lemma cc_nonneg cl l : 0 <= class_count cl l. Proof. unfold class_count. lia. Qed.
Lemma full_nonneg cl : counts_ok (full_col cl).
Proof.
  intros x Hx. unfold full_col in Hx. apply in_app_or in Hx as [Hx|Hx].
  - unfold clean_col, counts in Hx. apply in_map_iff in Hx as (k & <- & _). rewrite ovr_count. lia.
  - apply in_app_or in Hx as [Hx|[<-|[]]]; [|apply cc_nonneg].
    destruct sp as [|l|d]; cbn [special_col] in Hx; [destruct Hx as [<-|[]]; apply cc_nonneg|destruct Hx as [<-|[]]; apply cc_nonneg|].
    apply in_map_iff in Hx as (kv & <- & _). apply cc_nonneg.
Qed.
Lemma nd_splits : mf_classes f <> [] -> nondecreasing (mf_splits f).
Proof.
  intros H. destruct (mf_classes f) as [|cl l] eqn:E; [congruence|].
  assert (E0 : nth_error (mf_classes f) 0 = Some cl) by (rewrite E; reflexivity). exact (proj1 (multi_column _ _ _ _ _ _ _ F Hs Hok E0)).
Qed.
Lemma clean_total cl : In cl (mf_classes f) -> 0 < zsum (clean_col sp (mf_splits f) rs cl).
Proof.
  intros H. pose proof H as H'. rewrite (mm_classes _ _ _ _ _ F) in H. unfold m_classes in H. apply np_unique_In, in_map_iff in H as (r & E & Hr).
  pose proof Hr as Hr'. apply filter_In in Hr' as [_ Hc].
  assert (Hy : m_y r = Some cl).
  { unfold m_clean, m_missing in Hc. unfold m_label in E. destruct (m_y r) as [y|]; [now rewrite E|]. rewrite orb_true_r in Hc. discriminate. }
  assert (Hd : (digitize (mf_splits f) (num (m_x r)) <= length (mf_splits f))%nat) by apply digitize_le.
  unfold clean_col, counts. set (k := digitize (mf_splits f) (num (m_x r))) in *.
  assert (Hv : 1 <= bin_count 1 (digitize (mf_splits f)) false (one_vs_rest cl (m_cleans sp rs)) k).
  { rewrite ovr_count. assert (In r (filter (fun r0 => is_class cl r0 && Nat.eqb (digitize (mf_splits f) (num (m_x r0))) k) (m_cleans sp rs))).
    { apply filter_In. split; [exact Hr|]. apply andb_true_iff. split; [now apply is_class_iff|]. apply Nat.eqb_refl. }
    destruct (filter _ _) as [|a l]; [destruct H|]. cbn [length]. lia. }
  assert (Hin : In (bin_count 1 (digitize (mf_splits f)) false (one_vs_rest cl (m_cleans sp rs)) k)
                   (map (bin_count 1 (digitize (mf_splits f)) false (one_vs_rest cl (m_cleans sp rs))) (seq 0 (S (length (mf_splits f)))))).
  { apply in_map. apply in_seq. lia. }
  apply zsum_pos_In in Hin; [lia|]. intros x Hx. apply in_map_iff in Hx as (j & <- & _). rewrite ovr_count. lia.
Qed.
Lemma multi_ok : mf_classes f <> [] -> table_ok (S (length (mf_splits f)) + n_special sp + 1) (mf_cols f).
Proof.
  intros Hn. rewrite cols_eq. split; [intros E; apply map_eq_nil in E; auto|]. intros col Hc. apply in_map_iff in Hc as (cl & <- & Hcl).
  split; [apply full_len|]. split; [apply full_nonneg|]. pose proof (clean_total cl Hcl). unfold full_col.
  assert (E : forall a b, zsum (a ++ b) = zsum a + zsum b) by (induction a; intros; cbn [app zsum]; [lia|rewrite IHa; lia]).
  rewrite E. assert (0 <= zsum (special_col sp (filter (m_special sp) rs) cl ++ [class_count cl (filter m_missing rs)])); [|lia].
  apply zsum_nonneg. intros x Hx. apply (full_nonneg cl x). unfold full_col. apply in_or_app. now right.
Qed.
Lemma multi_metric : mf_classes f <> [] -> mb_metric (n_special sp) (mf_cols f) = S (length (mf_splits f)).
Proof. intros H. unfold mb_metric. rewrite (t_rows _ _ (multi_ok H)). lia. Qed.
Lemma multi_clean : mf_classes f <> [] -> mb_clean (n_special sp) (mf_cols f) = map (clean_col sp (mf_splits f) rs) (mf_classes f).
Proof.
  intros H. unfold mb_clean. rewrite (multi_metric H), cols_eq, map_map. apply map_ext. intros cl. unfold full_col.
  rewrite firstn_app. replace (S (length (mf_splits f)) - length (clean_col sp (mf_splits f) rs cl))%nat with 0%nat by (unfold clean_col; rewrite length_counts; lia).
  rewrite firstn_O, app_nil_r. apply firstn_all2. unfold clean_col. rewrite length_counts. lia.
Qed.
Lemma multi_pos cl : mf_splits f <> [] -> In cl (mf_classes f) -> pos_list (clean_col sp (mf_splits f) rs cl).
Proof.
  intros Hne Hcl. apply In_nth_error in Hcl as [c Hc].
  assert (Hp : mp_splits (mf_prebins f) <> []) by (intros E; destruct (mm_nil _ _ _ _ _ F E) as [E1 _]; congruence).
  destruct (mm_sol _ _ _ _ _ F Hp) as [E1 E2]. pose proof (rm_cols _ _ _ _ (mm_refined _ _ _ _ _ F) Hp) as Ecols.
  assert (Hc' : nth_error (m_classes sp rs) c = Some cl) by (rewrite <- (mm_classes _ _ _ _ _ F); exact Hc).
  assert (Hnp : nondecreasing (mp_splits (mf_prebins f))) by (eapply subseq_nondecr; [apply (rm_sub _ _ _ _ (mm_refined _ _ _ _ _ F))|exact Hs]).
  pose proof (nth_class_cols (mp_splits (mf_prebins f)) (m_classes sp rs) (m_cleans sp rs) c cl Hc') as X. rewrite <- Ecols in X.
  destruct (Hok (mp_cols (mf_prebins f)) (S (length (mp_splits (mf_prebins f))))) as [Hl Hla].
  - destruct (mp_splits (mf_prebins f)); [congruence|]. cbn. lia.
  - intros E0. rewrite E0 in X. destruct c; discriminate.
  - intros c' Hin. rewrite Ecols in Hin. now apply class_cols_len in Hin.
  - rewrite <- E1 in Hl, Hla.
    pose proof (merge_counts_digitize false (one_vs_rest cl (m_cleans sp rs)) (mp_splits (mf_prebins f)) (mf_solution f) Hnp Hl Hla) as M.
    cbv zeta in M. rewrite <- E2 in M. refine (merge_loop_pos _ _ _ _ M _ _); [lia|].
    intros v Hv. assert (v <> 0).
    { apply (rm_nz _ _ _ _ (mm_refined _ _ _ _ _ F) _ v (nth_error_In _ _ X)). now right. }
    assert (0 <= v); [|lia]. unfold counts in Hv. apply in_map_iff in Hv as (k & <- & _). rewrite ovr_count. lia.
Qed.
Lemma multi_two : mf_classes f <> [] -> mf_splits f <> [] -> (2 <= length (mf_classes f))%nat.
Proof.
  intros Hcl Hne.
  assert (Hp : mp_splits (mf_prebins f) <> []) by (intros E; destruct (mm_nil _ _ _ _ _ F E) as [E1 _]; congruence).
  pose proof (rm_cols _ _ _ _ (mm_refined _ _ _ _ _ F) Hp) as Ecols.
  rewrite (mm_classes _ _ _ _ _ F). destruct (m_classes sp rs) as [|cl [|cl' l]] eqn:E; [| |cbn; lia].
  - rewrite (mm_classes _ _ _ _ _ F) in Hcl. congruence.
  - exfalso. assert (X : nth_error (m_classes sp rs) 0 = Some cl) by (rewrite E; reflexivity).
    apply (nth_class_cols (mp_splits (mf_prebins f)) _ (m_cleans sp rs)) in X. rewrite E in X. rewrite <- Ecols in X. apply nth_error_In in X.
    assert (N : bin_count 1 (digitize (mp_splits (mf_prebins f))) true (one_vs_rest cl (m_cleans sp rs)) 0 <> 0).
    { apply (rm_nz _ _ _ _ (mm_refined _ _ _ _ _ F) _ _ X). left. unfold counts. apply in_map_iff. exists 0%nat. split; [reflexivity|]. apply in_seq. lia. }
    rewrite ovr_count0 in N. destruct (filter _ _) as [|r l] eqn:Ef in N; [cbn in N; lia|].
    assert (Hr : In r (r :: l)) by now left. rewrite <- Ef in Hr. apply filter_In in Hr as [Hr Hb]. apply andb_true_iff in Hb as [Hb _].
    destruct (clean_label sp rs r Hr) as (y & Hy & Hin). rewrite E in Hin. destruct Hin as [<-|[]].
    assert (is_class cl r = true) by now apply is_class_iff. rewrite H in Hb. discriminate.
Qed.
Lemma multi_all_pos : mf_classes f <> [] -> mf_splits f <> [] -> all_pos (S (length (mf_splits f))) (mb_clean (n_special sp) (mf_cols f)).
Proof.
  intros H1 H2. rewrite (multi_clean H1). split; [intros E; apply map_eq_nil in E; auto|]. split; [lia|].
  intros col Hc. apply in_map_iff in Hc as (cl & <- & Hcl). split; [unfold clean_col; apply length_counts|now apply multi_pos].
Qed.
Lemma multi_analysis : mf_classes f <> [] ->
  (exists v, mb_cramer_v (n_special sp) (mf_cols f) = Ok v /\ (0 <= v <= 1)%R /\
     (v = 0%R <-> (mf_splits f = [] \/ independent (S (length (mf_splits f))) (mb_clean (n_special sp) (mf_cols f))))) /\
  (forall i, (S i < mb_metric (n_special sp) (mf_cols f))%nat ->
     exists t, chi2_contingency (mb_pair (mb_clean (n_special sp) (mf_cols f)) i) = Ok t /\ (0 <= t)%R).
Proof.
  intros H. split.
  - unfold mb_cramer_v. rewrite (multi_metric H). destruct (mf_splits f) as [|s l] eqn:E.
    + cbn [length Nat.leb]. exists 0%R. split; [reflexivity|]. split; [lra|]. split; auto.
    + assert (Hne : mf_splits f <> []) by congruence.
      destruct (all_pos_ok _ _ (multi_all_pos H Hne)) as [A B].
      assert (L2 : (2 <= length (mb_clean (n_special sp) (mf_cols f)))%nat) by (rewrite (multi_clean H), map_length; exact (multi_two H Hne)).
      rewrite <- E. assert (G : (2 <= S (length (mf_splits f)))%nat) by (rewrite E; cbn; lia).
      destruct (cramer_multi _ _ A B (Nat.lt_0_succ _) G L2) as (v & V & V1 & V2). apply Nat.leb_le in G. rewrite G, V.
      exists v. split; [reflexivity|]. split; [exact V1|]. rewrite V2. split; [now right|]. intros [X|X]; [congruence|exact X].
  - intros i Hi. rewrite (multi_metric H) in Hi. assert (Hne : mf_splits f <> []) by (intros E; rewrite E in Hi; cbn in Hi; lia).
    destruct (all_pos_ok _ _ (all_pos_pair _ _ i (multi_all_pos H Hne) Hi)) as [A B].
    eexists. split; [exact (chi2_value _ _ A B Nat.lt_0_2)|]. exact (proj1 (pearson_facts _ _ A B Nat.lt_0_2)).
Qed.
End Multi.

(** * Binary *)
Lemma sw_clean_In sp xs ys sw w : In w (sw_clean (split_masks sp xs ys sw)) -> In w sw.
Proof. destruct sp; cbn [split_masks sw_clean]; intros H; eapply select_In; exact H. Qed.
Section Binary.
Variables (d : divergence) (solver : list Z -> list Z -> list bool) (sp : special) (fixed : option (list bool)) (user : option (list Z))
  (splits0 : list Z) (xs : list xval) (ys : list yval) (sw : list Z) (f : fitted).
Hypothesis H1 : length xs = length ys.
Hypothesis H2 : length xs = length sw.
Hypothesis Hy : ~ In YNaN ys.
Hypothesis Hc : ~ In XNaN (flat_codes sp).
Hypothesis Hd : sp_disjoint sp.
Hypothesis Hnd : nondecreasing splits0.
Hypothesis Hsol : solver_ok solver.
Hypothesis Hw : forall w, In w sw -> 0 <= w.
Hypothesis Hf : fit_numerical 1 d solver sp fixed user splits0 xs ys sw = Some (Ok f).
Hypothesis Hr : refines d = true.

Lemma bin_len : length (f_nev f) = (S (length (f_splits f)) + n_special sp + 1)%nat /\ length (f_ev f) = length (f_nev f).
Proof.
  pose proof (C03_table d solver sp fixed user splits0 xs ys sw f H1 H2 Hy Hc Hd Hnd Hsol Hf) as T. cbv zeta in T. destruct T as (A & B & _). lia.
Qed.
Lemma bin_metric : bt_metric (n_special sp) 0 (f_nev f) = S (length (f_splits f)).
Proof. unfold bt_metric. destruct bin_len as [-> _]. lia. Qed.
Lemma ts_len o : length (target_info_special sp (x_special o) (y_special o) (sw_special o)) = n_special sp.
Proof. unfold target_info_special. destruct sp; cbn [n_special length]; [reflexivity|reflexivity|apply map_length]. Qed.
Lemma bin_pos : f_splits f <> [] ->
  pos_list (firstn (S (length (f_splits f))) (f_nev f)) /\ pos_list (firstn (S (length (f_splits f))) (f_ev f)).
Proof.
  intros Hne. destruct bin_len as [L1 L2]. pose proof Hf as Hf'. unfold fit_numerical in Hf'.
  destruct (compute_prebins _ _ _ _ _ _ _ _ _) as [[pb|e]|] eqn:Ep; try discriminate. injection Hf' as Hf'.
  apply compute_prebins_refined in Ep.
  assert (Hcw : forall s, In s (to_csamples (split_masks sp xs ys sw)) -> 0 <= cw s).
  { intros s Hs. unfold to_csamples in Hs. apply In_nth_error in Hs as [i Hi]. rewrite map2_nth_error in Hi.
    destruct (nth_error (combine _ _) i); [|discriminate]. destruct (nth_error (sw_clean _) i) as [w|] eqn:Ew; [|discriminate].
    injection Hi as <-. cbn [cw]. apply Hw. apply nth_error_In in Ew.
    exact (sw_clean_In _ _ _ _ _ Ew). }
  destruct (refined_pos 1 d _ _ _ Z.lt_0_1 Hcw Hr Ep) as [P1 P2].
  unfold finish_fit in Hf'.
  set (o := split_masks sp xs ys sw) in *. set (sol := if (length (pb_nev pb) <=? 1)%nat then _ else _) in *.
  assert (Hps : pb_splits pb <> []).
  { intros E. assert (En : pb_nev pb = []) by (rewrite (rf_nev _ _ _ _ _ Ep), E; reflexivity).
    destruct (bin_info_1 1 sol _ None (map fst _) _); [|discriminate]. destruct (bin_info_1 1 sol _ None (map snd _) _); [|discriminate].
    injection Hf' as <-. cbn [f_splits] in Hne. unfold optimal_splits in Hne. rewrite En in Hne. cbn [length Nat.leb] in Hne. congruence. }
  destruct (pb_splits pb) as [|s0 l0] eqn:Eps; [congruence|]. clear Hps.
  assert (Lsol : sol <> []).
  { assert (Ln : (2 <= length (pb_nev pb))%nat) by (rewrite (rf_nev _ _ _ _ _ Ep), Eps; rewrite length_counts; cbn; lia).
    assert (Le : length (pb_nev pb) = length (pb_ev pb)) by (rewrite (rf_nev _ _ _ _ _ Ep), (rf_ev _ _ _ _ _ Ep), Eps; rewrite !length_counts; reflexivity).
    unfold sol. destruct (Nat.leb_spec (length (pb_nev pb)) 1); [lia|]. destruct (Hsol _ _ Le Ln) as [X _]. intros E. rewrite E in X. cbn in X. lia. }
  assert (Core : forall n spc m t, pos_list n -> length spc = n_special sp -> bin_info_1 1 sol n None spc m = Some t ->
            length t = (S (length (f_splits f)) + n_special sp + 1)%nat -> pos_list (firstn (S (length (f_splits f))) t)).
  { intros n spc m t Pn Lspc Ht Lt. unfold bin_info_1 in Ht. destruct sol as [|b0 s1]; [congruence|].
    destruct (merge_loop 0 (b0 :: s1) n) as [r|] eqn:Em; [|discriminate]. cbn [option_map map app] in Ht. injection Ht as <-.
    rewrite !app_length, map_length, Lspc in Lt. cbn [length] in Lt.
    assert (Er : length r = S (length (f_splits f))) by lia. rewrite <- Er, firstn_app, Nat.sub_diag, firstn_O, app_nil_r, firstn_all.
    refine (merge_loop_pos _ _ _ _ Em _ Pn). lia. }
  destruct (bin_info_1 1 sol (pb_nev pb) None (map fst _) _) as [ta|] eqn:Ea; [|discriminate].
  destruct (bin_info_1 1 sol (pb_ev pb) None (map snd _) _) as [tb|] eqn:Eb; [|discriminate].
  injection Hf' as Hf'. assert (Xa : f_nev f = ta) by (rewrite <- Hf'; reflexivity). assert (Xb : f_ev f = tb) by (rewrite <- Hf'; reflexivity).
  split.
  - rewrite Xa. refine (Core _ _ _ _ P1 _ Ea _); [rewrite map_length; apply ts_len|lia || (rewrite <- Xa; lia)].
  - rewrite Xb. refine (Core _ _ _ _ P2 _ Eb _); [rewrite map_length; apply ts_len|rewrite <- Xb; lia].
Qed.
Lemma bin_all_pos : f_splits f <> [] -> let m := S (length (f_splits f)) in all_pos m [firstn m (f_nev f); firstn m (f_ev f)].
Proof.
  intros Hne m. destruct (bin_pos Hne) as [P1 P2]. destruct bin_len as [L1 L2]. split; [discriminate|]. split; [unfold m; lia|].
  intros col [<-|[<-|[]]]; (split; [rewrite firstn_length; unfold m; lia|assumption]).
Qed.
Lemma bin_analysis :
  (exists v, bt_cramer_v (n_special sp) 0 (f_nev f) (f_ev f) = Ok v /\ (0 <= v <= 1)%R /\
     (v = 0%R <-> (f_splits f = [] \/ let m := S (length (f_splits f)) in independent m [firstn m (f_nev f); firstn m (f_ev f)]))) /\
  (forall i, (S i < bt_metric (n_special sp) 0 (f_nev f))%nat ->
     exists t, chi2_contingency (bt_pair (n_special sp) 0 (f_nev f) (f_ev f) i) = Ok t /\ (0 <= t)%R).
Proof.
  split.
  - unfold bt_cramer_v. rewrite bin_metric. cbv zeta. destruct (f_splits f) as [|s l] eqn:E.
    + cbn [length Nat.leb]. exists 0%R. split; [reflexivity|]. split; [lra|]. split; auto.
    + assert (Hne : f_splits f <> []) by congruence. pose proof (bin_all_pos Hne) as AP. cbv zeta in AP. rewrite <- E.
      destruct (all_pos_ok _ _ AP) as [A B].
      destruct (cramer_binary _ _ _ A B (Nat.lt_0_succ _)) as (v & V & V1 & V2 & _).
      assert (G : (2 <=? S (length (f_splits f)))%nat = true) by (rewrite E; reflexivity). rewrite G, V.
      exists v. split; [reflexivity|]. split; [exact V1|]. rewrite V2. split; [now right|]. intros [X|X]; [congruence|exact X].
  - intros i Hi. rewrite bin_metric in Hi. assert (Hne : f_splits f <> []) by (intros E; rewrite E in Hi; cbn in Hi; lia).
    unfold bt_pair. rewrite bin_metric. cbv zeta.
    destruct (all_pos_ok _ _ (all_pos_pair _ _ i (bin_all_pos Hne) Hi)) as [A B]. cbn [map] in A, B.
    eexists. split; [exact (chi2_value _ _ A B Nat.lt_0_2)|]. exact (proj1 (pearson_facts _ _ A B Nat.lt_0_2)).
Qed.
End Binary.
