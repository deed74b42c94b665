(** Multiclass transform: mean of the one-vs-rest weights of evidence. *)
From Coq Require Import List ZArith Bool Arith Lia Reals Lra.
From Verif Require Import Model.Arr Model.Core Model.CP Model.Multi Model.Metrics Model.MultiT
  Spec.CoreSpec Spec.CPSpec Spec.CPFitSpec Spec.MultiSpec Spec.MultiWSpec
  Proofs.ArrP Proofs.CoreP Proofs.FitP Proofs.CoreFinal Proofs.CPP Proofs.CPC Proofs.CPTable Proofs.CPFinal
  Proofs.MultiP Proofs.MultiFinal.
Import ListNotations.
Open Scope R_scope.

Lemma zsum_rows_cols (cols : list (list Z)) n : (forall c, In c cols -> length c = n) ->
  zsum (map (mt_row cols) (seq 0 n)) = zsum (map zsum cols).
Proof.
  intros H. unfold mt_row. induction cols as [|c cols IH].
  - cbn [map]. change (zsum []) with 0%Z. apply zsum_zero.
  - cbn [map]. rewrite (zsum_map_ext _ (fun k => (nth k c 0 + zsum (map (fun col => nth k col 0) cols))%Z)) by (intros; reflexivity).
    rewrite zsum_map_plus. change (zsum (zsum c :: map zsum cols)) with (zsum c + zsum (map zsum cols))%Z.
    rewrite IH by (intros; apply H; now right). f_equal. rewrite <- (H c (or_introl eq_refl)). clear.
    f_equal. apply nth_error_ext. intros i. rewrite nth_error_map.
    destruct (nth_error c i) as [v|] eqn:E.
    + assert (i < length c)%nat by (apply nth_error_Some; congruence).
      rewrite (nth_error_nth' _ 0%nat) by (rewrite seq_length; lia). rewrite seq_nth by lia. cbn. f_equal. now apply nth_error_nth.
    + apply nth_error_None in E. assert (E2 : nth_error (seq 0 (length c)) i = None) by (apply nth_error_None; rewrite seq_length; lia).
      now rewrite E2.
Qed.
Lemma zsum_nth_seq (c : list Z) : zsum (map (fun k => nth k c 0%Z) (seq 0 (length c))) = zsum c.
Proof.
  f_equal. apply nth_error_ext. intros i. rewrite nth_error_map.
  destruct (nth_error c i) as [v|] eqn:E.
  - assert (i < length c)%nat by (apply nth_error_Some; congruence).
    rewrite (nth_error_nth' _ 0%nat) by (rewrite seq_length; lia). rewrite seq_nth by lia. cbn. f_equal. now apply nth_error_nth.
  - apply nth_error_None in E. assert (E2 : nth_error (seq 0 (length c)) i = None) by (apply nth_error_None; rewrite seq_length; lia).
    now rewrite E2.
Qed.

Section W.
Variables (cols : list (list Z)) (n : nat).
Hypothesis Hlen : forall c, In c cols -> length c = n.
Hypothesis Hne : cols <> [].
Hypothesis Hnn : forall c v, In c cols -> In v c -> (0 <= v)%Z.

Lemma rows_n : mt_rows cols = n.
Proof using Hlen Hne. clear Hnn. destruct cols as [|c r] eqn:E; [congruence|]. cbn. apply Hlen. now left. Qed.
Lemma nonevent_total c : (c < length cols)%nat -> mt_nonevent cols c = (zsum (map zsum cols) - zsum (nth c cols []))%Z.
Proof using Hlen Hne.
  intros Hc. unfold mt_nonevent. rewrite rows_n.
  assert (E : forall l, zsum (map (fun k => (mt_row cols k - mt_cell cols k c)%Z) l) = (zsum (map (mt_row cols) l) - zsum (map (fun k => mt_cell cols k c) l))%Z).
  { induction l as [|a l IH]; [reflexivity|]. cbn [map zsum]. lia. }
  rewrite E, (zsum_rows_cols cols n Hlen). f_equal. unfold mt_cell.
  rewrite <- (Hlen (nth c cols [])) by (apply nth_In; exact Hc). apply zsum_nth_seq.
Qed.
Lemma zsum_nn (l : list Z) : (forall v, In v l -> (0 <= v)%Z) -> (0 <= zsum l)%Z.
Proof. clear. induction l as [|a l IH]; intros H; cbn [zsum]; [lia|]. pose proof (H a (or_introl eq_refl)). assert (0 <= zsum l)%Z by (apply IH; intros; apply H; now right). lia. Qed.
Lemma nth_le_zsum (l : list Z) k : (forall v, In v l -> (0 <= v)%Z) -> (nth k l 0 <= zsum l)%Z.
Proof.
  clear. revert k. induction l as [|a l IH]; intros k H; [destruct k; cbn; lia|].
  pose proof (H a (or_introl eq_refl)). assert (0 <= zsum l)%Z by (apply zsum_nn; intros; apply H; now right).
  destruct k; cbn [nth zsum]; [lia|]. assert (nth k l 0 <= zsum l)%Z by (apply IH; intros; apply H; now right). lia.
Qed.
Lemma mt_woe_ovr k c : (k < n)%nat -> (c < length cols)%nat -> mt_woe cols k c = ovr_woe cols k c.
Proof using All.
  intros Hk Hc. unfold mt_woe, ovr_woe. cbv zeta. fold (mt_cell cols k c). fold (mt_row cols k).
  destruct (Z.ltb_spec 0 (mt_cell cols k c)) as [H1|]; [|reflexivity].
  destruct (Z.ltb_spec 0 (mt_row cols k - mt_cell cols k c)) as [H2|]; [|reflexivity]. cbn [andb].
  unfold er_to_woe. rewrite nonevent_total by exact Hc. unfold mt_event. rewrite minus_IZR.
  set (C := nth c cols []) in *. assert (HC : In C cols) by (apply nth_In; exact Hc).
  assert (HE : (0 < zsum C)%Z).
  { eapply Z.lt_le_trans; [exact H1|]. apply nth_le_zsum. intros v. now apply Hnn. }
  assert (HN : (0 < zsum (map zsum cols) - zsum C)%Z).
  { unfold C. rewrite <- nonevent_total by exact Hc. unfold mt_nonevent. rewrite rows_n.
    eapply Z.lt_le_trans; [exact H2|].
    assert (P : forall k', (0 <= mt_row cols k' - mt_cell cols k' c)%Z).
    { intros k'. unfold mt_row, mt_cell. fold C.
      assert (G : (nth k' C 0 <= zsum (map (fun col => nth k' col 0) cols))%Z).
      { replace (nth k' C 0%Z) with (nth c (map (fun col => nth k' col 0%Z) cols) 0%Z).
        - apply nth_le_zsum. intros v Hv. apply in_map_iff in Hv. destruct Hv as (col & <- & Hcol).
          destruct (nth_in_or_default k' col 0%Z) as [Hi| ->]; [exact (Hnn col _ Hcol Hi)|lia].
        - rewrite (nth_indep _ 0%Z (nth k' [] 0%Z)) by (rewrite map_length; exact Hc).
          rewrite (map_nth (fun col => nth k' col 0%Z)). reflexivity. }
      lia. }
    replace (mt_row cols k - mt_cell cols k c)%Z with (nth k (map (fun k => (mt_row cols k - mt_cell cols k c)%Z) (seq 0 n)) 0%Z) by (rewrite nth_seq_map by exact Hk; reflexivity).
    apply nth_le_zsum. intros v Hv. apply in_map_iff in Hv. destruct Hv as (k' & <- & _). apply P. }
  assert (R1 := IZR_lt _ _ H1). assert (R2 := IZR_lt _ _ HE). assert (R3 := IZR_lt _ _ HN). assert (R4 := IZR_lt _ _ H2).
  rewrite !minus_IZR in *. f_equal. field. lra.
Qed.
End W.

Lemma multi_woe solver sp fixed user splits0 rs f m ms mm x k :
  nondecreasing splits0 -> m_solver_ok solver -> ~ In XNaN (flat_codes sp) -> sp_disjoint sp ->
  fit_multi solver sp fixed user splits0 rs = Some (Ok f) -> mf_classes f <> [] ->
  row_of (mf_splits f) sp x k ->
  ((k <= length (mf_splits f))%nat \/ (ms = Empirical /\ mm = Empirical)) ->
  let cols := mf_cols f in
  let cs := seq 0 (length (mf_classes f)) in
  transform_multi f sp m ms mm x =
  Ok match m with
     | MeanWoe => rsum (map (ovr_woe cols k) cs) / INR (length (mf_classes f))
     | WeightedMeanWoe => rsum (map (fun c => IZR (zsum (nth c cols [])) * ovr_woe cols k c) cs)
                          / rsum (map (fun c => IZR (zsum (nth c cols []))) cs)
     end.
Proof.
  intros Hs Hok Hnan Hdis Hf Hcl Hrow Hk cols cs.
  destruct (multi_table _ _ _ _ _ _ _ Hs Hok Hnan Hf) as (_ & _ & L & T). cbv zeta in T.
  set (nr := (S (length (mf_splits f)) + n_special sp + 1)%nat) in *.
  pose proof (fit_multi_inv _ _ _ _ _ _ _ Hf) as F.
  assert (Hlen : forall c, In c cols -> length c = nr).
  { intros c Hc. apply In_nth_error in Hc. destruct Hc as [i Hi].
    assert (Hi2 : (i < length (mf_classes f))%nat) by (rewrite <- L; apply nth_error_Some; fold cols; congruence).
    destruct (nth_error (mf_classes f) i) as [cl|] eqn:Ecl; [|apply nth_error_None in Ecl; lia].
    destruct (T i cl Ecl) as (_ & col & E1 & E2 & _). fold cols in E1. congruence. }
  assert (Hnn : forall c v, In c cols -> In v c -> (0 <= v)%Z).
  { intros c v Hc Hv. apply In_nth_error in Hc. destruct Hc as [i Hi].
    assert (Hi2 : (i < length (mf_classes f))%nat) by (rewrite <- L; apply nth_error_Some; fold cols; congruence).
    destruct (nth_error (mf_classes f) i) as [cl|] eqn:Ecl; [|apply nth_error_None in Ecl; lia].
    destruct (multi_column solver sp splits0 rs f i cl F Hs Hok Ecl) as [_ E]. fold cols in E.
    assert (Ec : c = clean_col sp (mf_splits f) rs cl ++ special_col sp (filter (m_special sp) rs) cl ++ [class_count cl (filter m_missing rs)]) by congruence.
    rewrite Ec in Hv. apply in_app_or in Hv. destruct Hv as [Hv|Hv]; [|apply in_app_or in Hv; destruct Hv as [Hv|Hv]].
    - unfold clean_col, counts in Hv. apply in_map_iff in Hv. destruct Hv as (j & <- & _). rewrite ovr_count. lia.
    - unfold special_col in Hv. destruct sp; cbn [In] in Hv; [destruct Hv as [<-|[]]; unfold class_count; lia..|].
      apply in_map_iff in Hv. destruct Hv as (kv & <- & _). unfold class_count. lia.
    - destruct Hv as [<-|[]]. unfold class_count. lia. }
  assert (Hne : cols <> []) by (intros E; unfold cols in E; rewrite E in L; cbn in L; destruct (mf_classes f); [congruence|discriminate]).
  assert (HnS : nondecreasing (mf_splits f)).
  { destruct (mf_classes f) as [|cl r] eqn:E; [congruence|]. destruct (T 0%nat cl eq_refl) as [H _]. exact H. }
  assert (Hkn : (k < nr)%nat).
  { unfold row_of in Hrow. destruct x as [|z]; [unfold nr; lia|].
    destruct Hrow as [(i & Hi & ->)|[_ Hb]]; [apply special_index_lt in Hi; unfold nr; lia|apply in_bin_i_lt in Hb; unfold nr; lia]. }
  set (mv := map (mt_value m cols) (seq 0 (mt_rows cols))).
  assert (Eidx : idx mv k = Ok (mt_value m cols k)).
  { unfold idx, mv. rewrite nth_error_map, (rows_n cols nr Hlen Hne), (nth_error_nth' _ 0%nat) by (rewrite seq_length; exact Hkn).
    rewrite seq_nth by exact Hkn. reflexivity. }
  assert (Et : transform_multi f sp m ms mm x = idx mv k).
  { unfold transform_multi. fold cols mv. destruct x as [|z]; cbn [row_of] in Hrow.
    - subst k. destruct Hk as [Hk|[-> ->]]; [lia|]. rewrite transform1_missing. reflexivity.
    - destruct Hrow as [(i & Hi & Ek)|[Hc Hb]].
      + destruct Hk as [Hk|[-> ->]]; [lia|]. subst k. erewrite transform1_special; [reflexivity|exact Hdis|exact Hi].
      + assert (Ed : digitize (mf_splits f) z = k) by (eapply in_bin_unique; [exact HnS|apply digitize_in_bin; exact HnS|exact Hb]).
        rewrite transform1_clean; [now rewrite Ed|]. unfold is_clean. cbn [x_isnull negb andb]. apply negb_true_iff.
        destruct sp; [reflexivity| |]; apply not_true_is_false; rewrite isin_In; exact Hc. }
  rewrite Et, Eidx. f_equal. unfold mt_value. fold cols in L. rewrite L. fold cs.
  assert (Ew : forall c, In c cs -> mt_woe cols k c = ovr_woe cols k c).
  { intros c Hc. apply in_seq in Hc. apply (mt_woe_ovr cols nr Hlen Hne Hnn); [exact Hkn|lia]. }
  destruct m.
  - f_equal. f_equal. apply map_ext_in. exact Ew.
  - f_equal. f_equal. apply map_ext_in. intros c Hc. rewrite (Ew c Hc). apply Rmult_comm.
Qed.
