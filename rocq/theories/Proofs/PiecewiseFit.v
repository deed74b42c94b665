From Coq Require Import List ZArith Reals Lra Lia Bool.
From Verif Require Import Model.Arr Model.Core Model.Metrics Model.Piecewise Spec.CoreSpec Spec.PiecewiseSpec
  Proofs.ArrP Proofs.CoreP Proofs.FitP Proofs.MetricsP Proofs.PiecewiseP.
Import ListNotations.
Open Scope Z_scope.

Lemma rows_of_clean (c : list row) : (forall r, In r c -> row_w r = 1) ->
  rows (map row_x c) (map row_y c) (map (fun _ => 1) (map row_x c)) = c.
Proof.
  unfold rows. induction c as [|[[x y] w] c IH]; intros H; [reflexivity|]. cbn [map combine].
  rewrite IH by (intros r Hr; apply H; now right). f_equal.
  specialize (H _ (or_introl eq_refl)). cbn in H. subst w. reflexivity.
Qed.
Lemma removelast2 {A} (l : list A) a b : removelast (removelast (l ++ [a] ++ [b])) = l.
Proof.
  replace (l ++ [a] ++ [b]) with ((l ++ [a]) ++ [b]) by (rewrite <- app_assoc; reflexivity).
  rewrite removelast_last, removelast_last. reflexivity.
Qed.
Lemma filter_idem {A} (f g : A -> bool) l : (forall a, In a l -> g a = true -> f a = true) ->
  filter f (filter g l) = filter g l.
Proof.
  induction l as [|a l IH]; intros H; [reflexivity|]. cbn [filter].
  destruct (g a) eqn:E; [cbn [filter]; rewrite (H a (or_introl eq_refl) E)|];
    rewrite IH; auto; intros b Hb; apply H; now right.
Qed.
Lemma In_rows_w xs ys r : length xs = length ys -> In r (rows xs ys (map (fun _ => 1) xs)) -> row_w r = 1.
Proof.
  intros H Hr. rewrite rows_ones in Hr by exact H. apply in_map_iff in Hr as (xy & <- & _). reflexivity.
Qed.
Lemma count_true_filter {A} (f : A -> bool) l : count_true (map f l) = length (filter f l).
Proof. induction l as [|a l IH]; cbn; [reflexivity|]. destruct (f a); cbn; rewrite IH; reflexivity. Qed.

Section Fit.
  Variables (d : divergence) (solver : list Z -> list Z -> list bool) (fixed : option (list bool)) (user : option (list Z))
    (pre : list xval -> list yval -> list Z) (coef : list xval -> list yval -> list Z -> list (list R)) (sp : special)
    (xs : list xval) (ys : list yval) (p : pwfitted).
  Hypothesis Hlen : length xs = length ys.
  Hypothesis Hy : ~ In YNaN ys.
  Hypothesis Hc : ~ In XNaN (flat_codes sp).
  Hypothesis Hpre : forall a b, nondecreasing (pre a b).
  Hypothesis Hsol : solver_ok solver.
  Hypothesis Hfit : pw_fit (inner_fit d solver fixed user pre) coef sp xs ys = Ok p.
  Let W := map (fun _ : xval => 1) xs.
  Let RR := rows xs ys W.

  Lemma pw_fit_rows : nondecreasing (p_splits p) /\
    p_nev p = expected_rows (p_splits p) sp RR true /\ p_ev p = expected_rows (p_splits p) sp RR false /\
    p_nev_special p = sp_rows sp true (filter (spec_b sp) RR) /\
    p_ev_special p = sp_rows sp false (filter (spec_b sp) RR) /\
    p_nev_missing p = zsum (map row_w (filter (cls_b true) (filter miss_b RR))) /\
    p_ev_missing p = zsum (map row_w (filter (cls_b false) (filter miss_b RR))).
  Proof.
    unfold pw_fit in Hfit. fold W in Hfit.
    assert (HW : length xs = length W) by (unfold W; now rewrite map_length).
    assert (Hys : forall r, In r RR -> row_y r <> YNaN).
    { intros r Hr Hn. apply rows_In_y in Hr. congruence. }
    rewrite (split_masks_filter sp xs ys W Hlen HW) in Hfit. fold RR in Hfit.
    set (c := filter (fun r => negb (miss_b r) && negb (spec_b sp r)) RR) in *.
    cbv zeta in Hfit. unfold out_of in Hfit. fold c in Hfit.
    cbn [x_clean y_clean sw_clean x_missing y_missing sw_missing x_special y_special sw_special] in Hfit.
    assert (Hcw : forall r, In r c -> row_w r = 1).
    { intros r Hr. apply filter_In in Hr as [Hr _]. unfold RR, W in Hr. eapply In_rows_w; eauto. }
    unfold inner_fit in Hfit.
    destruct (fit_numerical _ _ _ _ _ _ _ _ _ _) as [[f|e]|] eqn:Ef; try discriminate.
    cbn [rbind] in Hfit. injection Hfit as Hp.
    unfold fit_numerical in Ef.
    destruct (compute_prebins _ _ _ _ _ _ _ _ _) as [[pb|e]|] eqn:Ep; try discriminate.
    injection Ef as Ef. apply compute_prebins_refined in Ep.
    destruct (finish_fit_rows solver SpNone (map row_x c) (map row_y c) (map (fun _ => 1) (map row_x c)) pb f d
      (pre (map row_x c) (map row_y c))) as (Hn & E1 & E2).
    - now rewrite !map_length.
    - now rewrite !map_length.
    - intros Hin. apply in_map_iff in Hin as (r & Hr & Hin). apply filter_In in Hin as [Hin _]. exact (Hys r Hin Hr).
    - intros [].
    - exact I.
    - apply Hpre.
    - exact Hsol.
    - exact Ep.
    - exact Ef.
    - rewrite rows_of_clean in E1, E2 by exact Hcw.
      destruct (target_info_special_rows sp (filter (spec_b sp) RR)) as [Es0 Es1].
      assert (Hcc : filter (fun r => negb (miss_b r) && negb (spec_b SpNone r)) c = c).
      { unfold c at 1. apply (filter_idem (A:=row)). intros r _ H. apply andb_true_iff in H as [H _]. rewrite H. reflexivity. }
      assert (Hm : forall b : bool, count_true (if b then map y_is0 (map row_y (filter miss_b RR))
                        else mnot (map y_is0 (map row_y (filter miss_b RR))))
                    = length (filter (cls_b b) (filter miss_b RR))).
      { intros b. destruct b.
        - rewrite map_map, count_true_filter. f_equal. apply filter_ext. intros r. unfold cls_b.
          destruct (y_is0 (row_y r)); reflexivity.
        - rewrite mnot_map, map_map, count_true_filter. f_equal; try (apply filter_ext; intros r; unfold cls_b;
          destruct (y_is0 (row_y r)); reflexivity). }
      assert (Hmw : forall b : bool, zsum (map row_w (filter (cls_b b) (filter miss_b RR)))
                    = Z.of_nat (length (filter (cls_b b) (filter miss_b RR)))).
      { intros b. rewrite <- zsum_ones. f_equal. apply map_ext_in. intros r Hr.
        apply filter_In in Hr as [Hr _]. apply filter_In in Hr as [Hr _]. eapply In_rows_w; eauto. }
      rewrite <- Hp. cbn [p_splits p_nev p_ev p_nev_special p_ev_special p_nev_missing p_ev_missing].
      rewrite Es0, Es1, !Hmw. cbn [fst snd]. rewrite (Hm true), (Hm false).
      split; [exact Hn|].
      assert (D : forall b : bool, removelast (removelast (expected_rows (f_splits f) SpNone c b)) ++
          sp_rows sp b (filter (spec_b sp) RR) ++ [Z.of_nat (length (filter (cls_b b) (filter miss_b RR)))]
          = expected_rows (f_splits f) sp RR b).
      { intros b. unfold expected_rows at 1. cbn [sp_rows]. rewrite removelast2. rewrite Hcc.
        unfold expected_rows. fold c. rewrite Hmw. reflexivity. }
      rewrite <- (D true), <- (D false), E1, E2. repeat (split; [reflexivity|]). reflexivity.
  Qed.

  Lemma pw_fit_counts : sp_disjoint sp ->
    let n_rows := (S (length (p_splits p)) + n_special sp + 1)%nat in
    length (p_nev p) = n_rows /\ length (p_ev p) = n_rows /\
    forall k, (k < n_rows)%nat ->
      nth_error (p_nev p) k = Some (weight_of (goes_to (p_splits p) sp true k) RR) /\
      nth_error (p_ev p) k = Some (weight_of (goes_to (p_splits p) sp false k) RR).
  Proof.
    intros Hd n_rows. destruct pw_fit_rows as (Hn & E1 & E2 & _).
    assert (Hys : forall r, In r RR -> row_y r <> YNaN).
    { intros r Hr Hn'. apply rows_In_y in Hr. congruence. }
    destruct (expected_rows_spec (p_splits p) sp RR Hys Hc Hd true) as [L1 N1].
    destruct (expected_rows_spec (p_splits p) sp RR Hys Hc Hd false) as [L2 N2].
    rewrite E1, E2. split; [exact L1|]. split; [exact L2|]. intros k Hk. split; auto.
  Qed.

  Lemma sp_rows_code b i : (i < n_special sp)%nat -> sp <> SpNone ->
    nth_error (sp_rows sp b (filter (spec_b sp) RR)) i = Some (n_code sp i b xs ys).
  Proof.
    intros Hi Hsn. unfold RR, W. rewrite rows_ones by exact Hlen. unfold n_code.
    destruct sp as [|l|dd]; [congruence| |]; cbn [sp_rows n_special] in *.
    - replace i with 0%nat by lia. cbn [nth_error]. f_equal.
      rewrite filter_filter, weights_ones. do 2 f_equal. apply filter_ext. intros [x y]. unfold cls_b, spec_b. cbn.
      apply andb_comm.
    - rewrite nth_error_map. destruct (nth_error dd i) as [kv|] eqn:E; [|apply nth_error_None in E; lia].
      cbn [option_map]. f_equal. rewrite !filter_filter, weights_ones. do 2 f_equal. apply filter_ext. intros [x y].
      unfold cls_b, spec_b. cbn [fst snd row_x row_y].
      destruct (isin (snd kv) x) eqn:Ei.
      + assert (E2 : isin (flat_codes (SpDict dd)) x = true).
        { apply isin_In. apply isin_In in Ei. cbn. apply in_concat. exists (snd kv). split; [|exact Ei].
          apply in_map. eapply nth_error_In; eauto. }
        rewrite E2. cbn. rewrite andb_true_r. reflexivity.
      + rewrite ?andb_false_r. cbn. rewrite ?andb_false_r. reflexivity.
  Qed.
  Lemma missing_count b : zsum (map row_w (filter (cls_b b) (filter miss_b RR))) = n_missing b xs ys.
  Proof.
    unfold n_missing. rewrite filter_filter. unfold RR, W. rewrite rows_ones by exact Hlen. rewrite weights_ones.
    do 2 f_equal. apply filter_ext_in. intros [x y] Hin. unfold cls_b, miss_b. cbn [fst snd row_x row_y].
    assert (Hyn : y <> YNaN) by (intros ->; apply in_combine_r in Hin; contradiction).
    replace (y_isnull y) with false by (destruct y; [congruence|reflexivity|reflexivity]).
    rewrite orb_false_r. apply andb_comm.
  Qed.
  Lemma pw_fit_special i : (i < n_special sp)%nat -> sp <> SpNone ->
    nth_error (p_nev_special p) i = Some (n_code sp i true xs ys) /\
    nth_error (p_ev_special p) i = Some (n_code sp i false xs ys).
  Proof.
    intros Hi Hs. destruct pw_fit_rows as (_ & _ & _ & E1 & E2 & _). rewrite E1, E2. split; now apply sp_rows_code.
  Qed.
  Lemma pw_fit_missing : p_nev_missing p = n_missing true xs ys /\ p_ev_missing p = n_missing false xs ys.
  Proof.
    destruct pw_fit_rows as (_ & _ & _ & _ & _ & E1 & E2). rewrite E1, E2. split; apply missing_count.
  Qed.
End Fit.
