From Coq Require Import List ZArith Bool Arith Lia ZifyBool ZifyNat Permutation Sorting.
From Verif Require Import Model.Arr Model.Core Model.Cat Spec.CoreSpec Spec.CatSpec
  Proofs.ArrP Proofs.CoreP Proofs.FitP Proofs.CatP.
Import ListNotations.
Open Scope Z_scope.

Definition class_sum (c : bool) (l : list row) : Z := zsum (map row_w (filter (cls_b c) l)).

Definition expected_cat (fs : list Z) (data : list csample) (O specl missing : list row) (sp : special)
    (others : list Z) (c : bool) : list Z :=
  counts 1 (digitize fs) c data (S (length fs)) ++ match others with [] => [] | _ => [class_sum c O] end
    ++ sp_rows sp c specl ++ [class_sum c missing].

Lemma counts_nil_digitize c data : counts 1 (digitize []) c data 1 = [zsum (map cw (filter (fun s => Bool.eqb (c0 s) c) data))].
Proof.
  unfold counts, bin_count, trunc. cbn [seq map digitize]. rewrite Z.quot_1_r. do 3 f_equal. apply filter_ext. intros s.
  apply andb_true_r.
Qed.

Lemma finish_cat_rows solver sp cs cats pb f d splits0 data (K O specl missing : list row) :
  (forall r, In r K -> True) ->
  y_clean (cs_out cs) = map row_y K -> sw_clean (cs_out cs) = map row_w K ->
  y_missing (cs_out cs) = map row_y missing -> sw_missing (cs_out cs) = map row_w missing ->
  x_special (cs_out cs) = map row_x specl -> y_special (cs_out cs) = map row_y specl ->
  sw_special (cs_out cs) = map row_w specl ->
  cs_y_others cs = map row_y O -> cs_sw_others cs = map row_w O ->
  (forall c, zsum (map cw (filter (fun s => Bool.eqb (c0 s) c) data)) = class_sum c K) ->
  nondecreasing splits0 -> solver_ok solver -> refined 1 d data splits0 pb ->
  finish_fit_cat 1 solver sp cs cats pb = Ok f ->
  cf_cats f = cats /\ cf_others f = cs_others cs /\
  cf_nev f = expected_cat (cf_splits f) data O specl missing sp (cs_others cs) true /\
  cf_ev f = expected_cat (cf_splits f) data O specl missing sp (cs_others cs) false.
Proof.
  intros _ E1 E2 E3 E4 E5 E6 E7 E8 E9 Hcl Hnd Hsol Href Hf.
  assert (Hnp : nondecreasing (pb_splits pb)).
  { destruct Href as [Hsub _ _ _]. clear -Hsub Hnd.
    induction Hsub as [l|x a b H IH|x a b H IH]; [constructor| |].
    - apply nondecr_inv in Hnd as [Hb Hx]. constructor; [exact (IH Hb)|].
      apply Forall_forall. intros y Hyy. apply Hx. eapply subseq_In; eauto.
    - apply nondecr_inv in Hnd as [Hb Hx]. auto. }
  destruct Href as [_ Hnev Hev _]. unfold finish_fit_cat in Hf.
  rewrite E1, E2, E3, E4, E5, E6, E7, E8, E9, !target_info_rows in Hf.
  destruct (target_info_special_rows sp specl) as [Es0 Es1]. rewrite Es0, Es1 in Hf. cbn [fst snd] in Hf.
  fold (class_sum true K) (class_sum false K) (class_sum true O) (class_sum false O)
       (class_sum true missing) (class_sum false missing) in Hf.
  assert (Hoth : forall g, map (trunc 1) (match (match cs_others cs with [] => None | _ => Some g end) with Some o => [o] | None => [] end)
     = match cs_others cs with [] => [] | _ => [g] end).
  { intros g. destruct (cs_others cs); [reflexivity|]. apply map_trunc1. }
  destruct (pb_splits pb) as [|s r] eqn:Esp.
  - rewrite Hnev in Hf. cbn [length Nat.leb repeat optimal_splits] in Hf.
    unfold bin_info_1 in Hf. rewrite !Hoth in Hf. cbn [option_map] in Hf. injection Hf as <-. cbn [cf_splits cf_nev cf_ev cf_cats cf_others].
    unfold optimal_splits. cbn [Nat.leb].
    split; [reflexivity|]. split; [reflexivity|].
    unfold expected_cat. cbn [length]. rewrite !counts_nil_digitize, !Hcl, !map_trunc1. unfold trunc. rewrite !Z.quot_1_r.
    split; reflexivity.
  - rewrite <- Esp in *.
    assert (Hlen : length (pb_nev pb) = S (length (pb_splits pb)) /\ length (pb_ev pb) = S (length (pb_splits pb))).
    { rewrite Hnev, Hev. rewrite Esp at 1 4. split; apply length_counts. }
    destruct Hlen as [Ln Le].
    assert (Hgt : (length (pb_nev pb) <=? 1)%nat = false) by (rewrite Ln, Esp; cbn; reflexivity).
    rewrite Hgt in Hf. unfold optimal_splits in Hf. rewrite Hgt in Hf.
    destruct (Hsol (pb_nev pb) (pb_ev pb)) as [Hsl Hla]; [lia|rewrite Ln, Esp; cbn; lia|].
    set (sol := solver (pb_nev pb) (pb_ev pb)) in *.
    assert (Hne : sol <> []) by (intros Hn; rewrite Hn in Hsl; cbn in Hsl; lia).
    assert (M : forall cl, merge_loop 0 sol (counts 1 (digitize (pb_splits pb)) cl data (S (length (pb_splits pb))))
        = Some (counts 1 (digitize (select (init sol) (pb_splits pb))) cl data
                  (S (length (select (init sol) (pb_splits pb))))))
      by (intros cl; apply merge_counts_digitize; [exact Hnp|lia|exact Hla]).
    clearbody sol. rewrite Hnev, Hev in Hf. unfold bin_info_1 in Hf. rewrite !Hoth in Hf.
    destruct sol as [|b0 sol0] eqn:Esol; [congruence|]. rewrite <- Esol in *.
    rewrite !M in Hf. cbn [option_map] in Hf. injection Hf as <-. cbn [cf_splits cf_nev cf_ev cf_cats cf_others].
    split; [reflexivity|]. split; [reflexivity|].
    unfold expected_cat. rewrite !map_trunc1. unfold trunc. rewrite !Z.quot_1_r. split; reflexivity.
Qed.

(** destinations *)
Definition cat_goes (bins : list (list Z)) (sp : special) (un : Z) (c : bool) (k : nat) (r : row) : bool :=
  Bool.eqb (y_is0 (row_y r)) c &&
  match transform_indices_cat bins sp Empirical Empirical un (row_x r) with
  | Ok z => Z.eqb z (Z.of_nat k) | Err _ => false end.

Lemma cat_idx_listed bins sp ms mm un c j : ~ In (XNum c) (flat_codes sp) -> listed bins j c ->
  (forall j', listed bins j' c -> j' = j) -> transform_indices_cat bins sp ms mm un (XNum c) = Ok (Z.of_nat j).
Proof.
  intros Hc Hl Hu. unfold transform_indices_cat. rewrite (cat_transform_listed _ _ _ _ _ _ _ _ j Hc Hl Hu). apply idx_seq.
  destruct Hl as (b & Hb & _). assert (j < length bins)%nat by (apply nth_error_Some; congruence). lia.
Qed.
Lemma cat_idx_special bins sp mm un c i : sp_disjoint sp -> special_index sp i (XNum c) ->
  transform_indices_cat bins sp Empirical mm un (XNum c) = Ok (Z.of_nat (length bins + i)).
Proof.
  intros Hd Hi. unfold transform_indices_cat. rewrite (cat_transform_special _ _ _ _ _ _ _ _ i Hd Hi).
  unfold table_or_const, use_table. apply idx_seq. pose proof (special_index_lt _ _ _ Hi). lia.
Qed.
Lemma cat_idx_missing bins sp ms un :
  transform_indices_cat bins sp ms Empirical un XNaN = Ok (Z.of_nat (length bins + n_special sp)).
Proof. unfold transform_indices_cat. rewrite cat_transform_missing. unfold table_or_const, use_table. apply idx_seq. lia. Qed.

Section Final.
  Variables (sp : special) (cut : option (Z * Z)) (R : list row) (u : Z) (cats fs others : list Z) (un : Z).
  Hypothesis Hu : 0 < u.
  Hypothesis Hy : forall r, In r R -> row_y r <> YNaN.
  Hypothesis Hc : codes_ok sp.
  Hypothesis Hd : sp_disjoint sp.
  Let C := clean_of sp R.
  Let K := filter (fun r => negb (is_other cut C r)) C.
  Let O := filter (is_other cut C) C.
  Let specl := filter (spec_b sp) R.
  Let missing := filter miss_b R.
  Hypothesis Hnd : NoDup cats.
  Hypothesis Hcats : forall c, In c cats <-> In (XNum c) (map row_x K).
  Hypothesis Hoth : others = distinct (map num (map row_x O)).
  Let bins := bin_categorical u fs cats others.
  Let data := map (fun r => {| cx := u * Z.of_nat (index_of (num (row_x r)) cats); c0 := y_is0 (row_y r); cw := row_w r |}) K.

  Lemma clean_num r : In r C -> exists z, row_x r = XNum z /\ ~ In (XNum z) (flat_codes sp).
  Proof.
    intros Hr. apply filter_In in Hr as [Hr Hp]. rewrite (miss_b_x R Hy) in Hp by exact Hr. rewrite flat_codes_spec in Hp.
    destruct (row_x r) as [|z]; [discriminate|]. exists z. split; [reflexivity|]. cbn in Hp.
    rewrite <- isin_In. destruct (isin _ _); [discriminate|congruence].
  Qed.
  Lemma others_In z : In z others <-> exists r, In r O /\ row_x r = XNum z.
  Proof.
    rewrite Hoth, distinct_In, map_map, in_map_iff. split.
    - intros (r & <- & Hr). exists r. split; [exact Hr|]. apply filter_In in Hr as [Hr _].
      destruct (clean_num r Hr) as (z & Ez & _). now rewrite Ez.
    - intros (r & Hr & Ez). exists r. split; [now rewrite Ez|exact Hr].
  Qed.
  Lemma cats_others_disjoint c : In c cats -> In c others -> False.
  Proof.
    rewrite Hcats, others_In. intros H (r & Hr & Ez). apply in_map_iff in H as (r' & Ez' & Hr').
    apply filter_In in Hr as [_ H1], Hr' as [_ H2]. rewrite (is_other_x cut C r' r) in H2 by congruence.
    rewrite H1 in H2. discriminate.
  Qed.
  Lemma bins_unique i j c : listed bins i c -> listed bins j c -> i = j.
  Proof. apply listed_unique; auto. apply cats_others_disjoint. Qed.

  Lemma dest_K r : In r K -> exists z, row_x r = XNum z /\
    transform_indices_cat bins sp Empirical Empirical un (row_x r) = Ok (Z.of_nat (pos u fs cats z)).
  Proof.
    intros Hr. pose proof Hr as HrK. apply filter_In in Hr as [Hr _]. destruct (clean_num r Hr) as (z & Ez & Hz). exists z. split; [exact Ez|].
    rewrite Ez. assert (Hl : listed bins (pos u fs cats z) z).
    { apply <- (listed_iff u fs cats others Hu Hnd cats_others_disjoint). left. split; [|reflexivity]. apply Hcats. apply in_map_iff. eauto. }
    apply cat_idx_listed; auto. intros j' Hj'. eapply bins_unique; eauto.
  Qed.
  Lemma dest_O r : In r O -> others <> [] /\
    transform_indices_cat bins sp Empirical Empirical un (row_x r) = Ok (Z.of_nat (S (length fs))).
  Proof.
    intros Hr. pose proof Hr as HrO. apply filter_In in Hr as [Hr _]. destruct (clean_num r Hr) as (z & Ez & Hz).
    assert (Ho : In z others) by (apply others_In; eauto).
    split; [intros E; rewrite E in Ho; exact Ho|].
    rewrite Ez. assert (Hl : listed bins (S (length fs)) z) by (apply <- (listed_iff u fs cats others Hu Hnd cats_others_disjoint); auto).
    apply cat_idx_listed; auto. intros j' Hj'. eapply bins_unique; eauto.
  Qed.
  Lemma dest_M r : In r missing ->
    transform_indices_cat bins sp Empirical Empirical un (row_x r) = Ok (Z.of_nat (length bins + n_special sp)).
  Proof.
    intros Hr. apply filter_In in Hr as [Hr Hp]. rewrite (miss_b_x R Hy) in Hp by exact Hr.
    destruct (row_x r) as [|z]; [|discriminate]. apply cat_idx_missing.
  Qed.
  Lemma dest_S r : In r specl -> exists i, special_index sp i (row_x r) /\ (i < n_special sp)%nat /\
    transform_indices_cat bins sp Empirical Empirical un (row_x r) = Ok (Z.of_nat (length bins + i)).
  Proof.
    intros Hr. apply filter_In in Hr as [Hr Hp]. rewrite flat_codes_spec in Hp.
    destruct (row_x r) as [|z] eqn:E.
    - apply isin_In in Hp. contradiction.
    - destruct (special_index_ex _ _ Hp) as [i Hi]. exists i. split; [exact Hi|].
      split; [eapply special_index_lt; eauto|]. now apply cat_idx_special.
  Qed.

  Lemma weight_four p : weight_of p R = zsum (map row_w (filter p K)) + zsum (map row_w (filter p O))
    + zsum (map row_w (filter p specl)) + zsum (map row_w (filter p missing)).
  Proof.
    rewrite (weight_split sp R Hy Hc p). fold specl missing. f_equal. f_equal.
    change (filter (fun r => negb (miss_b r) && negb (spec_b sp r)) R) with C.
    rewrite (zsum_filter_split row_w (fun r => negb (is_other cut C r)) (filter p C)). unfold K, O.
    rewrite !filter_filter. f_equal; f_equal; f_equal; apply filter_ext; intros r; rewrite andb_comm; [reflexivity|].
    now rewrite negb_involutive.
  Qed.

  Lemma dest_ne c k r m : transform_indices_cat bins sp Empirical Empirical un (row_x r) = Ok (Z.of_nat m) -> m <> k ->
    cat_goes bins sp un c k r = false.
  Proof. intros E Hne. unfold cat_goes. rewrite E. replace (_ =? _) with false by lia. apply andb_false_r. Qed.
  Lemma dest_eq c k r m : transform_indices_cat bins sp Empirical Empirical un (row_x r) = Ok (Z.of_nat m) -> m = k ->
    cat_goes bins sp un c k r = cls_b c r.
  Proof. intros E ->. unfold cat_goes, cls_b. rewrite E, Z.eqb_refl. apply andb_true_r. Qed.

  Definition rows_cat (c : bool) : list Z := expected_cat fs data O specl missing sp others c.
  Let nb := length bins.
  Lemma nb_eq : nb = (S (length fs) + match others with [] => 0 | _ => 1 end)%nat.
  Proof. apply length_bins; auto; apply cats_others_disjoint. Qed.

  Lemma bin_count_K c k : bin_count 1 (digitize fs) c data k = zsum (map row_w (filter (cat_goes bins sp un c k) K)).
  Proof.
    unfold bin_count, trunc. rewrite Z.quot_1_r. unfold data.
    assert (E : forall l, (forall r, In r l -> In r K) ->
       zsum (map cw (filter (fun s => Bool.eqb (c0 s) c && Nat.eqb (digitize fs (cx s)) k)
          (map (fun r => {| cx := u * Z.of_nat (index_of (num (row_x r)) cats); c0 := y_is0 (row_y r); cw := row_w r |}) l)))
       = zsum (map row_w (filter (cat_goes bins sp un c k) l))).
    { induction l as [|r l IH]; intros Hin; [reflexivity|]. cbn [map filter].
      assert (IHl := IH (fun x Hx => Hin x (or_intror Hx))).
      destruct (dest_K r (Hin r (or_introl eq_refl))) as (z & Ez & Et).
      unfold cat_goes at 1. rewrite Et. cbn [c0 cx]. rewrite Ez. cbn [num]. unfold pos.
      replace (Z.of_nat (digitize fs (u * Z.of_nat (index_of z cats))) =? Z.of_nat k)
        with (Nat.eqb (digitize fs (u * Z.of_nat (index_of z cats))) k) by lia.
      destruct (Bool.eqb (y_is0 (row_y r)) c && Nat.eqb (digitize fs (u * Z.of_nat (index_of z cats))) k); cbn [map zsum cw];
        rewrite IHl; reflexivity. }
    apply E. auto.
  Qed.

  Lemma fil_K c k : (S (length fs) <= k)%nat -> filter (cat_goes bins sp un c k) K = [].
  Proof.
    intros Hk. apply filter_false_in. intros r Hr. destruct (dest_K r Hr) as (z & _ & Et).
    apply (dest_ne c k r _ Et). pose proof (pos_le u fs cats z). lia.
  Qed.
  Lemma fil_O c k : k <> S (length fs) -> filter (cat_goes bins sp un c k) O = [].
  Proof. intros Hk. apply filter_false_in. intros r Hr. destruct (dest_O r Hr) as [_ Et]. apply (dest_ne c k r _ Et). lia. Qed.
  Lemma fil_S c k : (k < nb \/ nb + n_special sp <= k)%nat -> filter (cat_goes bins sp un c k) specl = [].
  Proof.
    intros Hk. apply filter_false_in. intros r Hr. destruct (dest_S r Hr) as (i & _ & Hi & Et).
    apply (dest_ne c k r _ Et). fold nb. lia.
  Qed.
  Lemma fil_M c k : k <> (nb + n_special sp)%nat -> filter (cat_goes bins sp un c k) missing = [].
  Proof. intros Hk. apply filter_false_in. intros r Hr. apply (dest_ne c k r _ (dest_M r Hr)). fold nb. lia. Qed.

  Lemma rows_cat_spec c : length (rows_cat c) = (nb + n_special sp + 1)%nat /\
    forall k, (k < nb + n_special sp + 1)%nat -> nth_error (rows_cat c) k = Some (weight_of (cat_goes bins sp un c k) R).
  Proof.
    pose proof nb_eq as Enb. pose proof (length_sp_rows sp R Hc Hd) as Lsp.
    split.
    { unfold rows_cat, expected_cat. rewrite !app_length, length_counts, Lsp. destruct others; cbn [length]; lia. }
    intros k Hk. rewrite weight_four. unfold rows_cat, expected_cat.
    destruct (Nat.lt_ge_cases k (S (length fs))) as [H1|H1].
    - rewrite nth_error_app1 by (rewrite length_counts; exact H1).
      unfold counts. rewrite nth_error_map, (nth_error_nth' _ 0%nat) by (rewrite seq_length; lia).
      rewrite seq_nth by lia. cbn [option_map Nat.add]. rewrite bin_count_K, fil_O, fil_S, fil_M by lia. cbn [map zsum]. f_equal. lia.
    - rewrite nth_error_app2 by (rewrite length_counts; exact H1). rewrite length_counts, fil_K by lia.
      destruct (Nat.lt_ge_cases k nb) as [H2|H2].
      + (* others row *)
        assert (Ek : k = S (length fs)) by (destruct others; lia).
        assert (Eo : match others with [] => [] | _ => [class_sum c O] end = [class_sum c O]) by (destruct others; [lia|reflexivity]).
        rewrite Eo, Ek, Nat.sub_diag. cbn [nth_error app]. rewrite fil_S, fil_M by lia. cbn [map zsum].
        f_equal. unfold class_sum. rewrite Z.add_0_r, Z.add_0_r, Z.add_0_l. do 2 f_equal. apply filter_ext_in. intros r Hr.
        destruct (dest_O r Hr) as [_ Et]. symmetry. now apply (dest_eq c _ r _ Et).
      + replace (k - S (length fs))%nat with (match others with [] => 0 | _ => 1 end + (k - nb))%nat by (destruct others; lia).
        assert (Eq : nth_error (match others with [] => [] | _ => [class_sum c O] end ++ sp_rows sp c specl ++ [class_sum c missing])
             (match others with [] => 0 | _ => 1 end + (k - nb))%nat = nth_error (sp_rows sp c specl ++ [class_sum c missing]) (k - nb)%nat)
          by (destruct others; reflexivity).
        rewrite Eq.
        assert (FO : filter (cat_goes bins sp un c k) O = []).
        { destruct (Nat.eq_dec k (S (length fs))) as [Ek|Ek]; [|now apply fil_O].
          apply filter_false_in. intros r Hr. exfalso. apply (proj1 (dest_O r Hr)). destruct others; [reflexivity|lia]. }
        rewrite FO.
        destruct (Nat.lt_ge_cases (k - nb) (n_special sp)) as [H3|H3].
        * rewrite nth_error_app1 by (rewrite Lsp; exact H3). rewrite fil_M by lia. cbn [map zsum].
          rewrite (sp_rows_nth sp c specl (k - nb) (cat_goes bins sp un c k) Hd H3); [f_equal; lia|].
          intros r Hr. destruct (dest_S r Hr) as (i & Hi & Hil & Et). exists i. split; [exact Hi|].
          destruct (Nat.eqb_spec i (k - nb)) as [->|Hne].
          -- rewrite andb_true_r. apply (dest_eq c k r _ Et). fold nb. lia.
          -- rewrite andb_false_r. apply (dest_ne c k r _ Et). fold nb. lia.
        * rewrite nth_error_app2 by (rewrite Lsp; exact H3). rewrite Lsp.
          replace (k - nb - n_special sp)%nat with 0%nat by lia. cbn [nth_error]. rewrite fil_S by lia. cbn [map zsum].
          f_equal. unfold class_sum. rewrite !Z.add_0_l. do 2 f_equal. apply filter_ext_in. intros r Hr.
          symmetry. apply (dest_eq c k r _ (dest_M r Hr)). fold nb. lia.
  Qed.
End Final.

Lemma class_sum_data c u cats K :
  zsum (map cw (filter (fun s => Bool.eqb (c0 s) c)
    (map (fun r => {| cx := u * Z.of_nat (index_of (num (row_x r)) cats); c0 := y_is0 (row_y r); cw := row_w r |}) K)))
  = class_sum c K.
Proof.
  unfold class_sum, cls_b. induction K as [|r K IH]; [reflexivity|]. cbn [map filter c0].
  destruct (Bool.eqb (y_is0 (row_y r)) c); cbn [map zsum cw]; rewrite IH; reflexivity.
Qed.

Record cat_facts (u : Z) (sp : special) (cut : option (Z * Z)) (R : list row) (f : cfitted) : Prop := {
  ct_nodup : NoDup (cf_cats f);
  ct_cats : forall c, In c (cf_cats f) <-> In (XNum c) (map row_x (filter (fun r => negb (is_other cut (clean_of sp R) r)) (clean_of sp R)));
  ct_others : cf_others f = distinct (map num (map row_x (filter (is_other cut (clean_of sp R)) (clean_of sp R))));
  ct_nev : cf_nev f = rows_cat sp cut R u (cf_cats f) (cf_splits f) (cf_others f) true;
  ct_ev : cf_ev f = rows_cat sp cut R u (cf_cats f) (cf_splits f) (cf_others f) false;
  ct_order : let K := filter (fun r => negb (is_other cut (clean_of sp R) r)) (clean_of sp R) in
    by_event_rate (map row_x K) (map row_y K) (cf_cats f);
  ct_sorted : nondecreasing (cf_splits f) }.

Lemma fit_cat_facts u d solver sp cut order prebinning xs ys sw f : 0 < u ->
  length xs = length ys -> length xs = length sw -> ~ In YNaN ys -> codes_ok sp ->
  order_ok order -> (forall data, nondecreasing (prebinning data)) -> solver_ok solver ->
  fit_categorical 1 u d solver sp cut order prebinning xs ys sw = Some (Ok f) ->
  cat_facts u sp cut (rows xs ys sw) f.
Proof.
  intros Hu H1 H2 Hy Hc Hord Hpre Hsol Hf. unfold fit_categorical in Hf.
  destruct (split_categorical cut sp xs ys sw) as [cs|e] eqn:Es; [|discriminate].
  destruct (split_categorical_rows cut sp xs ys sw cs H1 H2 Es) as (A1 & A2 & A3 & A4 & A5 & A6 & A7 & A8 & A9 & B1 & B2 & B3).
  set (R := rows xs ys sw) in *. set (C := clean_of sp R) in *.
  set (K := filter (fun r => negb (is_other cut C r)) C) in *. set (O := filter (is_other cut C) C) in *.
  assert (Hry : forall r, In r R -> row_y r <> YNaN).
  { intros r Hr. apply rows_In_y in Hr. intros Hn'. rewrite Hn' in Hr. contradiction. }
  set (cats := order (x_clean (cs_out cs)) (y_clean (cs_out cs))) in *.
  assert (Hby : by_event_rate (map row_x K) (map row_y K) cats).
  { unfold cats. rewrite A1, A2. apply Hord; [now rewrite !map_length|]. intros Hn.
    apply in_map_iff in Hn as (r & Er & Hr). apply filter_In in Hr as [Hr _].
    destruct (clean_num sp R Hry r Hr) as (z & Ez & _). congruence. }
  set (data := cat_csamples u cats (cs_out cs)) in *.
  destruct (compute_prebins _ _ _ _ _ _ _ _ _) as [[pb|e]|] eqn:Ep; try discriminate.
  injection Hf as Hf. apply compute_prebins_refined in Ep.
  assert (Edata : data = map (fun r => {| cx := u * Z.of_nat (index_of (num (row_x r)) cats); c0 := y_is0 (row_y r); cw := row_w r |}) K)
    by (apply cat_csamples_rows; assumption).
  assert (Hsrt : nondecreasing (cf_splits f)).
  { assert (Hps : nondecreasing (pb_splits pb)).
    { destruct Ep as [Hsub _ _ _]. specialize (Hpre data). revert Hsub Hpre. generalize (prebinning data). clear.
      intros l Hsub. induction Hsub as [l|x a b H IH|x a b H IH]; intros Hnd; [constructor| |].
      - apply nondecr_inv in Hnd as [Hb Hx]. constructor; [exact (IH Hb)|].
        apply Forall_forall. intros y Hyy. apply Hx. eapply subseq_In; eauto.
      - apply nondecr_inv in Hnd as [Hb Hx]. auto. }
    unfold finish_fit_cat in Hf. cbv zeta in Hf.
    repeat match type of Hf with context [match ?x with Some _ => _ | None => _ end] => destruct x; try discriminate end.
    all: injection Hf as <-; cbn [cf_splits]; unfold optimal_splits;
      destruct (_ <=? _)%nat; [exact Hps|now apply select_nondecr]. }
  destruct (finish_cat_rows solver sp cs cats pb f d (prebinning data) data K O (filter (spec_b sp) R) (filter miss_b R))
    as (E1 & E2 & E3 & E4); auto.
  { intros c. rewrite Edata. apply class_sum_data. }
  destruct Hby as (Hn & Hin & Hs).
  constructor; rewrite ?E1, ?E2.
  - exact Hn.
  - exact Hin.
  - exact B1.
  - rewrite E3, Edata. reflexivity.
  - rewrite E4, Edata. reflexivity.
  - split; [exact Hn|]. split; [exact Hin|exact Hs].
  - exact Hsrt.
Qed.

Lemma trained_iff sp xs ys sw c : length xs = length ys -> length xs = length sw -> ~ In YNaN ys ->
  trained sp xs c <-> In (XNum c) (map row_x (clean_of sp (rows xs ys sw))).
Proof.
  intros H1 H2 Hy. assert (Hry : forall r, In r (rows xs ys sw) -> row_y r <> YNaN).
  { intros r Hr. apply rows_In_y in Hr. intros Hn'. rewrite Hn' in Hr. contradiction. }
  unfold trained. rewrite in_map_iff. split.
  - intros [Hin Hns]. rewrite <- (rows_x xs ys sw H1 H2) in Hin. apply in_map_iff in Hin as (r & Er & Hr).
    exists r. split; [exact Er|]. apply filter_In. split; [exact Hr|]. rewrite (miss_b_x _ Hry r Hr), flat_codes_spec, Er. cbn.
    apply negb_true_iff, not_true_is_false. now rewrite isin_In.
  - intros (r & Er & Hr). destruct (clean_num sp _ Hry r Hr) as (z & Ez & Hz). rewrite Er in Ez. injection Ez as <-.
    split; [|exact Hz]. rewrite <- (rows_x xs ys sw H1 H2), <- Er. apply in_map. apply filter_In in Hr. tauto.
Qed.

Lemma in_cats_or_others sp cut R f c : (forall r, In r R -> row_y r <> YNaN) ->
  (forall c, In c (cf_cats f) <-> In (XNum c) (map row_x (filter (fun r => negb (is_other cut (clean_of sp R) r)) (clean_of sp R)))) ->
  cf_others f = distinct (map num (map row_x (filter (is_other cut (clean_of sp R)) (clean_of sp R)))) ->
  In (XNum c) (map row_x (clean_of sp R)) <-> In c (cf_cats f) \/ In c (cf_others f).
Proof.
  intros Hy Hcats Hoth. rewrite Hcats, (others_In sp cut R (cf_others f) Hy Hoth). rewrite !in_map_iff. split.
  - intros (r & Er & Hr). destruct (is_other cut (clean_of sp R) r) eqn:E.
    + right. exists r. split; [apply filter_In; auto|exact Er].
    + left. exists r. split; [exact Er|]. apply filter_In. split; [exact Hr|now rewrite E].
  - intros [(r & Er & Hr)|(r & Hr & Er)]; exists r; (split; [exact Er|]); apply filter_In in Hr; tauto.
Qed.

Lemma C04_bins u d solver sp cut order prebinning xs ys sw f : 0 < u ->
  length xs = length ys -> length xs = length sw -> ~ In YNaN ys -> codes_ok sp ->
  order_ok order -> (forall data, nondecreasing (prebinning data)) -> solver_ok solver ->
  fit_categorical 1 u d solver sp cut order prebinning xs ys sw = Some (Ok f) ->
  let bins := bin_categorical u (cf_splits f) (cf_cats f) (cf_others f) in
  (forall c, trained sp xs c -> exists i, (i < length bins)%nat /\ listed bins i c /\ (forall j, listed bins j c -> j = i) /\
     forall V k ms mm (mv : list V) un, transform1_cat bins sp k ms mm mv un (XNum c) = idx mv i) /\
  (forall i c, listed bins i c -> trained sp xs c) /\
  (forall c V k ms mm (mv : list V) un, ~ trained sp xs c -> ~ In (XNum c) (flat_codes sp) ->
     transform1_cat bins sp k ms mm mv un (XNum c) = Ok un).
Proof.
  intros Hu H1 H2 Hy Hc Hord Hpre Hsol Hf bins.
  destruct (fit_cat_facts u d solver sp cut order prebinning xs ys sw f) as [N Cc Co _ _ _ _]; auto.
  assert (Hry : forall r, In r (rows xs ys sw) -> row_y r <> YNaN).
  { intros r Hr. apply rows_In_y in Hr. intros Hn'. rewrite Hn' in Hr. contradiction. }
  pose proof (cats_others_disjoint sp cut (rows xs ys sw) (cf_cats f) (cf_others f) Hry Cc Co) as Hdis.
  assert (HL : forall i c, listed bins i c <-> (In c (cf_cats f) /\ i = pos u (cf_splits f) (cf_cats f) c) \/
     (In c (cf_others f) /\ i = S (length (cf_splits f)))).
  { intros i c. now apply listed_iff. }
  assert (HT : forall c, trained sp xs c <-> In c (cf_cats f) \/ In c (cf_others f)).
  { intros c. rewrite (trained_iff sp xs ys sw c H1 H2 Hy). now apply in_cats_or_others with (cut := cut). }
  assert (HU : forall i j c, listed bins i c -> listed bins j c -> i = j).
  { intros i j c. apply listed_unique; auto. }
  split; [|split].
  - intros c Ht. assert (He : exists i, listed bins i c).
    { apply HT in Ht as [Ht|Ht]; eexists; apply HL; [left|right]; eauto. }
    destruct He as [i Hi]. exists i. split; [destruct Hi as (b & Hb & _); apply nth_error_Some; congruence|].
    split; [exact Hi|]. split; [intros j Hj; eapply HU; eauto|].
    intros V k ms mm mv un. apply cat_transform_listed; [apply Ht|exact Hi|]. intros j Hj. eapply HU; eauto.
  - intros i c Hi. apply HT. apply HL in Hi. tauto.
  - intros c V k ms mm mv un Hn Hs. apply cat_transform_unknown; [exact Hs|]. intros j Hj. apply Hn, HT. apply HL in Hj. tauto.
Qed.

Lemma C04_table u d solver sp cut order prebinning xs ys sw f un : 0 < u ->
  length xs = length ys -> length xs = length sw -> ~ In YNaN ys -> codes_ok sp -> sp_disjoint sp ->
  order_ok order -> (forall data, nondecreasing (prebinning data)) -> solver_ok solver ->
  fit_categorical 1 u d solver sp cut order prebinning xs ys sw = Some (Ok f) ->
  let bins := bin_categorical u (cf_splits f) (cf_cats f) (cf_others f) in
  let n_rows := (length bins + n_special sp + 1)%nat in
  length (cf_nev f) = n_rows /\ length (cf_ev f) = n_rows /\
  forall k, (k < n_rows)%nat ->
    nth_error (cf_nev f) k = Some (weight_of (cat_goes bins sp un true k) (rows xs ys sw)) /\
    nth_error (cf_ev f) k = Some (weight_of (cat_goes bins sp un false k) (rows xs ys sw)).
Proof.
  intros Hu H1 H2 Hy Hc Hd Hord Hpre Hsol Hf bins n_rows.
  destruct (fit_cat_facts u d solver sp cut order prebinning xs ys sw f) as [N Cc Co En Ee _ _]; auto.
  assert (Hry : forall r, In r (rows xs ys sw) -> row_y r <> YNaN).
  { intros r Hr. apply rows_In_y in Hr. intros Hn'. rewrite Hn' in Hr. contradiction. }
  destruct (rows_cat_spec sp cut (rows xs ys sw) u (cf_cats f) (cf_splits f) (cf_others f) un Hu Hry Hc Hd N Cc Co true) as [L1 N1].
  destruct (rows_cat_spec sp cut (rows xs ys sw) u (cf_cats f) (cf_splits f) (cf_others f) un Hu Hry Hc Hd N Cc Co false) as [L2 N2].
  rewrite En, Ee. split; [exact L1|]. split; [exact L2|]. intros k Hk. split; [now apply N1|now apply N2].
Qed.

Lemma digitize_mono splits a b : nondecreasing splits -> a <= b -> (digitize splits a <= digitize splits b)%nat.
Proof.
  induction splits as [|s r IH]; intros Hn Hab; cbn; [lia|]. apply nondecr_inv in Hn as [Hr _]. specialize (IH Hr Hab).
  destruct (s <=? a) eqn:E1, (s <=? b) eqn:E2; lia.
Qed.

Lemma FOP_nth {A} (P : A -> A -> Prop) l i j a b : ForallOrdPairs P l -> (i < j)%nat ->
  nth_error l i = Some a -> nth_error l j = Some b -> P a b.
Proof.
  intros H; revert i j; induction H as [|x l Hx Hl IH]; intros i j Hij Ha Hb; [destruct i; discriminate|].
  destruct j as [|j]; [lia|]. destruct i as [|i].
  - injection Ha as <-. rewrite Forall_forall in Hx. apply Hx. eapply nth_error_In; eauto.
  - apply (IH i j); auto; lia.
Qed.

(** bins group consecutive categories in event-rate order *)
Lemma C04_ordered u d solver sp cut order prebinning xs ys sw f a b i j : 0 < u ->
  length xs = length ys -> length xs = length sw -> ~ In YNaN ys -> codes_ok sp ->
  order_ok order -> (forall data, nondecreasing (prebinning data)) -> solver_ok solver ->
  fit_categorical 1 u d solver sp cut order prebinning xs ys sw = Some (Ok f) ->
  let bins := bin_categorical u (cf_splits f) (cf_cats f) (cf_others f) in
  listed bins i a -> listed bins j b -> (i < j <= length (cf_splits f))%nat ->
  cat_events a xs ys * cat_records b xs <= cat_events b xs ys * cat_records a xs.
Proof.
  intros Hu H1 H2 Hy Hc Hord Hpre Hsol Hf bins Ha Hb Hij.
  destruct (fit_cat_facts u d solver sp cut order prebinning xs ys sw f) as [N Cc Co _ _ Hby Hs]; auto.
  set (R := rows xs ys sw) in *.
  assert (Hry : forall r, In r R -> row_y r <> YNaN).
  { intros r Hr. apply rows_In_y in Hr. intros Hn'. rewrite Hn' in Hr. contradiction. }
  pose proof (cats_others_disjoint sp cut R (cf_cats f) (cf_others f) Hry Cc Co) as Hdis.
  apply (listed_iff u (cf_splits f) (cf_cats f) (cf_others f) Hu N Hdis) in Ha, Hb.
  destruct Ha as [[Ha Ei]|[_ Ei]]; [|lia]. destruct Hb as [[Hb Ej]|[_ Ej]]; [|lia].
  assert (Hlt : (index_of a (cf_cats f) < index_of b (cf_cats f))%nat).
  { destruct (Nat.lt_ge_cases (index_of a (cf_cats f)) (index_of b (cf_cats f))) as [H|H]; [exact H|].
    assert (digitize (cf_splits f) (u * Z.of_nat (index_of b (cf_cats f))) <= digitize (cf_splits f) (u * Z.of_nat (index_of a (cf_cats f))))%nat
      by (apply digitize_mono; [exact Hs|nia]). unfold pos in *. lia. }
  set (C := clean_of sp R) in *. set (K := filter (fun r => negb (is_other cut C r)) C) in *. cbv zeta in Hby.
  destruct Hby as (_ & Hin & Hrate).
  assert (P := FOP_nth _ _ _ _ a b Hrate Hlt (index_of_In _ _ Ha) (index_of_In _ _ Hb)). cbv beta in P.
  (* counts over K equal counts over the whole data for categories of K *)
  assert (HK : forall c, In c (cf_cats f) -> forall r, In r R -> row_x r = XNum c -> In r K).
  { intros c Hcc r Hr Er. apply Hin in Hcc. apply in_map_iff in Hcc as (r' & Er' & Hr').
    apply filter_In in Hr' as [Hr' Ho']. destruct (clean_num sp R Hry r' Hr') as (z & Ez & Hz).
    rewrite Er' in Ez. injection Ez as <-.
    apply filter_In. split.
    - apply filter_In. split; [exact Hr|]. rewrite (miss_b_x R Hry r Hr), flat_codes_spec, Er. cbn.
      apply negb_true_iff, not_true_is_false. now rewrite isin_In.
    - rewrite (is_other_x cut C r r') by congruence. exact Ho'. }
  assert (Hflt : forall c p, In c (cf_cats f) ->
    length (filter (fun r => xval_eqb (row_x r) (XNum c) && p r) K) = length (filter (fun r => xval_eqb (row_x r) (XNum c) && p r) R)).
  { intros c p Hcc. unfold K, C, clean_of. rewrite !filter_filter. f_equal. apply filter_ext_in. intros r Hr.
    destruct (xval_eqb (row_x r) (XNum c)) eqn:E; [|now rewrite !andb_false_r]. cbn.
    assert (Er : row_x r = XNum c) by (destruct (row_x r); [discriminate|]; cbn in E; apply Z.eqb_eq in E; congruence).
    assert (Hrk := HK c Hcc r Hr Er). unfold K in Hrk. apply filter_In in Hrk as [Q1 Q2].
    assert (Q3 := Q1). unfold C, clean_of in Q3. apply filter_In in Q3 as [_ Q3].
    fold (clean_of sp R). fold C. rewrite Q3, Q2. now rewrite ?andb_true_r. }
  assert (Hrec : forall c l, cat_records c (map row_x l) = Z.of_nat (length (filter (fun r => xval_eqb (row_x r) (XNum c) && true) l))).
  { intros c l. unfold cat_records, count_of. f_equal. induction l as [|r l IH]; [reflexivity|]. cbn [map filter].
    replace (xval_eqb (XNum c) (row_x r)) with (xval_eqb (row_x r) (XNum c))
      by (destruct (row_x r); cbn; [reflexivity|apply Z.eqb_sym]).
    rewrite andb_true_r. destruct (xval_eqb (row_x r) (XNum c)); cbn [length]; now rewrite IH. }
  assert (Hev : forall c l, cat_events c (map row_x l) (map row_y l) = Z.of_nat (length (filter (fun r => xval_eqb (row_x r) (XNum c) && negb (y_is0 (row_y r))) l))).
  { intros c l. unfold cat_events. f_equal. induction l as [|r l IH]; [reflexivity|]. cbn [map combine filter fst snd].
    destruct (xval_eqb (row_x r) (XNum c) && negb (y_is0 (row_y r))); cbn [length]; now rewrite IH. }
  rewrite !Hrec, !Hev, !Hflt in P by assumption.
  assert (Ex : map row_x R = xs) by (apply rows_x; assumption).
  assert (Ey : map row_y R = ys) by (apply rows_y; assumption).
  assert (Hrec2 : forall c, cat_records c xs = Z.of_nat (length (filter (fun r => xval_eqb (row_x r) (XNum c) && true) R)))
    by (intros c; rewrite <- Ex at 1; apply Hrec).
  assert (Hev2 : forall c, cat_events c xs ys = Z.of_nat (length (filter (fun r => xval_eqb (row_x r) (XNum c) && negb (y_is0 (row_y r))) R)))
    by (intros c; rewrite <- Ex at 1; rewrite <- Ey at 1; apply Hev).
  rewrite !Hrec2, !Hev2. exact P.
Qed.

Lemma C04_others u d solver sp p q order prebinning xs ys sw f c : 0 < u ->
  length xs = length ys -> length xs = length sw -> ~ In YNaN ys -> codes_ok sp ->
  order_ok order -> (forall data, nondecreasing (prebinning data)) -> solver_ok solver ->
  fit_categorical 1 u d solver sp (Some (p, q)) order prebinning xs ys sw = Some (Ok f) ->
  let clean := filter (fun x => negb (x_isnull x) && negb (isin (flat_codes sp) x)) xs in
  In c (cf_others f) <-> trained sp xs c /\ count_of (XNum c) xs < zceil (p * Z.of_nat (length clean)) q.
Proof.
  intros Hu H1 H2 Hy Hc Hord Hpre Hsol Hf clean.
  destruct (fit_cat_facts u d solver sp (Some (p, q)) order prebinning xs ys sw f) as [N Cc Co _ _ _ _]; auto.
  set (R := rows xs ys sw) in *.
  assert (Hry : forall r, In r R -> row_y r <> YNaN).
  { intros r Hr. apply rows_In_y in Hr. intros Hn'. rewrite Hn' in Hr. contradiction. }
  assert (Ecl : map row_x (clean_of sp R) = clean).
  { assert (Ex : map row_x R = xs) by (apply rows_x; assumption). unfold clean. rewrite <- Ex. unfold clean_of.
    assert (E : filter (fun r => negb (miss_b r) && negb (spec_b sp r)) R = filter (fun x => negb (x_isnull (row_x x)) && negb (isin (flat_codes sp) (row_x x))) R).
    { apply filter_ext_in. intros r Hr. now rewrite (miss_b_x R Hry r Hr), flat_codes_spec. }
    rewrite E. generalize R. induction R0 as [|r l IH]; [reflexivity|]. cbn [filter map].
    destruct (negb (x_isnull (row_x r)) && negb (isin (flat_codes sp) (row_x r))); cbn [map]; now rewrite IH. }
  assert (Elen : length (clean_of sp R) = length clean) by (rewrite <- Ecl; now rewrite map_length).
  assert (Ecount : forall z, ~ In (XNum z) (flat_codes sp) -> count_of (XNum z) (map row_x (clean_of sp R)) = count_of (XNum z) xs).
  { intros z Hz. rewrite Ecl. unfold clean, count_of. rewrite filter_filter. do 2 f_equal. apply filter_ext. intros x.
    destruct (xval_eqb (XNum z) x) eqn:E; [|apply andb_false_r]. destruct x as [|w]; [discriminate|]. cbn in E.
    apply Z.eqb_eq in E as <-. cbn. rewrite andb_true_r. apply negb_true_iff, not_true_is_false. now rewrite isin_In. }
  rewrite (others_In sp (Some (p, q)) R (cf_others f) Hry Co). rewrite (trained_iff sp xs ys sw c H1 H2 Hy). fold R.
  rewrite in_map_iff. cbn [is_other]. split.
  - intros (r & Hr & Er). apply filter_In in Hr as [Hr Ho]. split; [exists r; auto|].
    destruct (clean_num sp R Hry r Hr) as (z & Ez & Hz). rewrite Er in Ez. injection Ez as <-.
    cbn [is_other] in Ho. rewrite Er, Ecount, Elen in Ho by exact Hz. lia.
  - intros ((r & Er & Hr) & Hlt). exists r. split; [|exact Er]. apply filter_In. split; [exact Hr|].
    destruct (clean_num sp R Hry r Hr) as (z & Ez & Hz). rewrite Er in Ez. injection Ez as <-.
    cbn [is_other]. rewrite Er, Ecount, Elen by exact Hz. lia.
Qed.
