From Coq Require Import List ZArith Bool Arith Lia ZifyBool ZifyNat Permutation Sorting.
From Verif Require Import Model.Arr Model.Core Model.Cat Spec.CoreSpec Spec.CatSpec
  Proofs.ArrP Proofs.CoreP Proofs.FitP.
Import ListNotations.
Open Scope Z_scope.
Ltac Zify.zify_post_hook ::= Z.div_mod_to_equations.

Lemma zceil_le p q i : 0 < q -> zceil p q <= i <-> p <= q * i.
Proof. intros Hq. unfold zceil. split; intros H; nia. Qed.

Lemma digitize_ceil u splits i : 0 < u ->
  digitize (map (fun s => zceil s u) splits) i = digitize splits (u * i).
Proof.
  intros Hu. induction splits as [|s r IH]; cbn; [reflexivity|]. rewrite IH.
  pose proof (zceil_le s u i Hu). destruct (zceil s u <=? i) eqn:E1, (s <=? u * i) eqn:E2; try reflexivity; lia.
Qed.

Lemma In_select {A} (p : nat -> bool) (l : list A) x s :
  In x (select (map p (seq s (length l))) l) <-> exists j, nth_error l j = Some x /\ p (s + j)%nat = true.
Proof.
  revert s; induction l as [|y l IH]; intros s; cbn [length seq map select].
  - split; [intros []|]. intros (j & H & _). destruct j; discriminate.
  - destruct (p s) eqn:Ep.
    + cbn [In]. rewrite IH. split.
      * intros [->|(j & H1 & H2)]; [exists 0%nat; split; [reflexivity|now rewrite Nat.add_0_r]|].
        exists (S j). split; [exact H1|]. now rewrite <- plus_n_Sm.
      * intros ([|j] & H1 & H2); [left; now injection H1|]. right. exists j. split; [exact H1|].
        now rewrite <- plus_n_Sm in H2.
    + rewrite IH. split.
      * intros (j & H1 & H2). exists (S j). split; [exact H1|]. now rewrite <- plus_n_Sm.
      * intros ([|j] & H1 & H2); [rewrite Nat.add_0_r in H2; congruence|]. exists j. split; [exact H1|].
        now rewrite <- plus_n_Sm in H2.
Qed.

Lemma index_of_nth cats c j : NoDup cats -> nth_error cats j = Some c -> index_of c cats = j.
Proof.
  revert j; induction cats as [|k r IH]; intros j Hn H; [destruct j; discriminate|].
  inversion Hn as [|? ? Hk Hr]; subst. cbn. destruct j as [|j].
  - injection H as ->. now rewrite Z.eqb_refl.
  - cbn in H. destruct (Z.eqb_spec c k) as [->|Hne]; [exfalso; apply Hk; eapply nth_error_In; eauto|].
    f_equal. now apply IH.
Qed.
Lemma index_of_In cats c : In c cats -> nth_error cats (index_of c cats) = Some c.
Proof.
  induction cats as [|k r IH]; intros H; [destruct H|]. cbn. destruct (Z.eqb_spec c k) as [->|Hne]; [reflexivity|].
  cbn. apply IH. destruct H; congruence.
Qed.

Section Bins.
  Variables (u : Z) (splits cats others : list Z).
  Hypothesis Hu : 0 < u.
  Hypothesis Hnd : NoDup cats.
  Hypothesis Hdis : forall c, In c cats -> In c others -> False.
  Let bins := bin_categorical u splits cats others.
  Definition pos (c : Z) : nat := digitize splits (u * Z.of_nat (index_of c cats)).

  Lemma length_bins : length bins = (S (length splits) + match others with [] => 0 | _ => 1 end)%nat.
  Proof.
    unfold bins, bin_categorical. rewrite app_length, map_length, seq_length. destruct others; reflexivity.
  Qed.
  Lemma pos_le c : (pos c <= length splits)%nat. Proof. apply digitize_le. Qed.

  Lemma listed_iff i c : listed bins i c <->
    (In c cats /\ i = pos c) \/ (In c others /\ i = S (length splits)).
  Proof.
    unfold listed, bins, bin_categorical.
    set (core := map _ (seq 0 (S (length splits)))).
    assert (Lc : length core = S (length splits)) by (unfold core; now rewrite map_length, seq_length).
    assert (Hcore : forall i b, (i < S (length splits))%nat -> nth_error core i = Some b ->
       forall c, In c b <-> In c cats /\ i = pos c).
    { intros i0 b Hi Hb c0. unfold core in Hb. rewrite nth_error_map, (nth_error_nth' _ 0%nat) in Hb by (rewrite seq_length; lia).
      rewrite seq_nth in Hb by lia. cbn [option_map Nat.add] in Hb. injection Hb as <-.
      rewrite In_select. cbn [Nat.add]. split.
      - intros (j & Hj & He). split; [eapply nth_error_In; eauto|].
        apply Nat.eqb_eq in He. rewrite digitize_ceil in He by exact Hu. unfold pos.
        rewrite (index_of_nth cats c0 j Hnd Hj). lia.
      - intros [Hin ->]. exists (index_of c0 cats). split; [now apply index_of_In|].
        apply Nat.eqb_eq. rewrite digitize_ceil by exact Hu. reflexivity. }
    split.
    - intros (b & Hb & Hc). destruct (Nat.lt_ge_cases i (S (length splits))) as [H|H].
      + rewrite nth_error_app1 in Hb by lia. left. now apply (Hcore i b H Hb).
      + rewrite nth_error_app2 in Hb by lia. rewrite Lc in Hb. right.
        destruct others as [|o r]; [destruct (i - _)%nat; discriminate|].
        destruct (i - S (length splits))%nat as [|m] eqn:Em; [|destruct m; discriminate].
        injection Hb as <-. split; [exact Hc|lia].
    - intros [[Hin ->]|[Hin ->]].
      + pose proof (pos_le c). destruct (nth_error core (pos c)) as [b|] eqn:Eb.
        * exists b. split; [rewrite nth_error_app1 by lia; exact Eb|]. apply (Hcore (pos c) b); auto; lia.
        * apply nth_error_None in Eb. lia.
      + exists others. rewrite nth_error_app2 by lia. rewrite Lc, Nat.sub_diag.
        destruct others; [destruct Hin|]. split; [reflexivity|exact Hin].
  Qed.

  Lemma listed_unique i j c : listed bins i c -> listed bins j c -> i = j.
  Proof.
    rewrite !listed_iff. intros [[A ->]|[A ->]] [[B ->]|[B ->]]; try reflexivity; exfalso; eauto.
  Qed.
End Bins.

(** transform *)
Lemma isin_cat b c : isin (map XNum b) (XNum c) = true <-> In c b.
Proof.
  rewrite isin_In, in_map_iff. split; [intros (d & E & H); now injection E as ->|intros H; eauto].
Qed.

Lemma apply_bins_none {V} bins i (mv : list V) x cur :
  (forall b, In b bins -> isin (map XNum b) x = false) -> apply_bins bins i mv x cur = cur.
Proof.
  revert i cur; induction bins as [|b r IH]; intros i cur H; cbn; [reflexivity|].
  rewrite (H b) by (now left). apply IH. intros b' Hb'. apply H. now right.
Qed.
Lemma apply_bins_unique {V} bins i (mv : list V) c cur j :
  listed bins j c -> (forall j', listed bins j' c -> j' = j) ->
  apply_bins bins i mv (XNum c) cur = idx mv (i + j)%nat.
Proof.
  revert i cur j; induction bins as [|b r IH]; intros i cur j (b0 & Hb0 & Hin) Hu; [destruct j; discriminate|].
  cbn [apply_bins]. destruct j as [|j].
  - injection Hb0 as ->. assert (E := proj2 (isin_cat b0 c) Hin). rewrite E.
    rewrite apply_bins_none; [f_equal; lia|]. intros b' Hb'. apply not_true_is_false. rewrite isin_cat. intros Hc.
    apply In_nth_error in Hb' as [j' Hj']. assert (S j' = 0%nat) by (apply Hu; exists b'; split; assumption). lia.
  - rewrite (IH (S i) _ j); [f_equal; lia|exists b0; split; assumption|].
    intros j' (b' & Hj' & Hc). assert (S j' = S j) by (apply Hu; exists b'; split; assumption). lia.
Qed.
Lemma apply_bins_unlisted {V} bins i (mv : list V) c cur :
  (forall j, ~ listed bins j c) -> apply_bins bins i mv (XNum c) cur = cur.
Proof.
  intros H. apply apply_bins_none. intros b Hb. apply not_true_is_false. rewrite isin_cat. intros Hc.
  apply In_nth_error in Hb as [j Hj]. apply (H j). exists b. split; assumption.
Qed.
Lemma apply_bins_nan {V} bins i (mv : list V) cur : apply_bins bins i mv XNaN cur = cur.
Proof.
  apply apply_bins_none. intros b _. apply not_true_is_false. rewrite isin_In, in_map_iff. intros (d & E & _). discriminate.
Qed.

Lemma apply_special_clean {V} k a (mv : list V) n sp x cur :
  isin (flat_codes sp) x = false -> apply_special k a mv n sp x cur = cur.
Proof.
  destruct sp as [|l|d]; cbn; intros H; [reflexivity|now rewrite H|].
  apply special_dict_none. intros kv Hkv. apply not_true_is_false. rewrite isin_In. intros Hx.
  rewrite <- not_true_iff_false, isin_In in H. apply H. apply in_concat. exists (snd kv). split; [now apply in_map|exact Hx].
Qed.
Lemma apply_special_hit {V} k a (mv : list V) n sp x cur i :
  sp_disjoint sp -> special_index sp i x -> apply_special k a mv n sp x cur = table_or_const k a mv (n + i)%nat.
Proof.
  destruct sp as [|l|d]; cbn; intros Hd Hi; [tauto| |].
  - destruct Hi as [-> Hi]. rewrite (proj2 (isin_In _ _) Hi). f_equal. lia.
  - destruct Hi as (kv & Hkv & Hx). eapply special_dict_hit; eauto.
Qed.

Lemma cat_transform_listed {V} bins sp k ms mm (mv : list V) un c j :
  ~ In (XNum c) (flat_codes sp) -> listed bins j c -> (forall j', listed bins j' c -> j' = j) ->
  transform1_cat bins sp k ms mm mv un (XNum c) = idx mv j.
Proof.
  intros Hc Hl Hu. unfold transform1_cat. cbn [x_isnull].
  rewrite apply_special_clean by (apply not_true_is_false; rewrite isin_In; exact Hc).
  rewrite (apply_bins_unique bins 0 mv c _ j Hl Hu). reflexivity.
Qed.
Lemma cat_transform_unknown {V} bins sp k ms mm (mv : list V) un c :
  ~ In (XNum c) (flat_codes sp) -> (forall j, ~ listed bins j c) ->
  transform1_cat bins sp k ms mm mv un (XNum c) = Ok un.
Proof.
  intros Hc Hl. unfold transform1_cat. cbn [x_isnull].
  rewrite apply_special_clean by (apply not_true_is_false; rewrite isin_In; exact Hc).
  now apply apply_bins_unlisted.
Qed.
Lemma cat_transform_special {V} bins sp k ms mm (mv : list V) un c i :
  sp_disjoint sp -> special_index sp i (XNum c) ->
  transform1_cat bins sp k ms mm mv un (XNum c) = table_or_const k ms mv (length bins + i)%nat.
Proof. intros Hd Hi. unfold transform1_cat. cbn [x_isnull]. now apply apply_special_hit. Qed.
Lemma cat_transform_missing {V} bins sp k ms mm (mv : list V) un :
  transform1_cat bins sp k ms mm mv un XNaN = table_or_const k mm mv (length bins + n_special sp)%nat.
Proof. reflexivity. Qed.

(** special rows of the table *)
Lemma sp_rows_nth sp c l i (g : row -> bool) : sp_disjoint sp -> (i < n_special sp)%nat ->
  (forall r, In r l -> exists j, special_index sp j (row_x r) /\ g r = cls_b c r && Nat.eqb j i) ->
  nth_error (sp_rows sp c l) i = Some (zsum (map row_w (filter g l))).
Proof.
  intros Hd Hi Hg.
  assert (Hone : forall r, In r l -> g r = cls_b c r &&
      match sp with SpDict d => match nth_error d i with Some kv => isin (snd kv) (row_x r) | None => false end
                  | _ => true end).
  { intros r Hr. destruct (Hg r Hr) as (j & Hj & ->). f_equal.
    destruct (Nat.eqb_spec j i) as [->|Hne].
    - destruct sp as [|l0|d]; try reflexivity. destruct Hj as (kv & Hkv & Hx). rewrite Hkv. symmetry. now apply isin_In.
    - pose proof (special_index_lt _ _ _ Hj) as Hjl. destruct sp as [|l0|d]; cbn in Hjl, Hi; [lia|lia|].
      destruct (nth_error d i) as [kv'|] eqn:Ei; [|reflexivity].
      symmetry. apply not_true_is_false. rewrite isin_In. intros Hx'.
      destruct Hj as (kv & Hkv & Hx). apply Hne. eapply Hd; eauto. }
  rewrite (filter_ext_in _ _ _ Hone). clear Hg Hone.
  destruct sp as [|l0|d]; cbn [sp_rows n_special] in *.
  - replace i with 0%nat by lia. cbn. do 3 f_equal. apply filter_ext. intros r. now rewrite andb_true_r.
  - replace i with 0%nat by lia. cbn. do 3 f_equal. apply filter_ext. intros r. now rewrite andb_true_r.
  - rewrite nth_error_map. destruct (nth_error d i) as [kv|] eqn:Ei.
    + cbn. do 3 f_equal. rewrite filter_filter. apply filter_ext. intros r. apply andb_comm.
    + apply nth_error_None in Ei. lia.
Qed.

Lemma zmem_In z l : zmem z l = true <-> In z l.
Proof.
  unfold zmem. rewrite existsb_exists. split; [intros (x & H & E); apply Z.eqb_eq in E; now subst|].
  intros H. exists z. split; [exact H|apply Z.eqb_refl].
Qed.
Lemma distinct_In z l : In z (distinct l) <-> In z l.
Proof.
  induction l as [|x r IH]; cbn; [tauto|]. destruct (zmem x r) eqn:E.
  - rewrite IH. apply zmem_In in E. intuition congruence.
  - cbn. rewrite IH. tauto.
Qed.
Lemma distinct_nil l : distinct l = [] -> l = [].
Proof.
  intros H. destruct l as [|x r]; [reflexivity|]. assert (Hx : In x (distinct (x :: r))) by (rewrite distinct_In; now left).
  rewrite H in Hx. destruct Hx.
Qed.

(** * The pre-processed rows *)
Definition is_other (cut : option (Z * Z)) (C : list row) (r : row) : bool :=
  match cut with
  | None => false
  | Some (p, q) => count_of (row_x r) (map row_x C) <? zceil (p * Z.of_nat (length C)) q
  end.

Definition clean_of (sp : special) (R : list row) : list row :=
  filter (fun r => negb (miss_b r) && negb (spec_b sp r)) R.

Lemma split_categorical_rows cut sp xs ys sw cs : length xs = length ys -> length xs = length sw ->
  split_categorical cut sp xs ys sw = Ok cs ->
  let R := rows xs ys sw in let C := clean_of sp R in
  let K := filter (fun r => negb (is_other cut C r)) C in let O := filter (is_other cut C) C in
  x_clean (cs_out cs) = map row_x K /\ y_clean (cs_out cs) = map row_y K /\ sw_clean (cs_out cs) = map row_w K /\
  x_missing (cs_out cs) = map row_x (filter miss_b R) /\ y_missing (cs_out cs) = map row_y (filter miss_b R) /\
  sw_missing (cs_out cs) = map row_w (filter miss_b R) /\
  x_special (cs_out cs) = map row_x (filter (spec_b sp) R) /\ y_special (cs_out cs) = map row_y (filter (spec_b sp) R) /\
  sw_special (cs_out cs) = map row_w (filter (spec_b sp) R) /\
  cs_others cs = distinct (map num (map row_x O)) /\ cs_y_others cs = map row_y O /\ cs_sw_others cs = map row_w O.
Proof.
  intros H1 H2 Hs R C K O. unfold split_categorical in Hs. rewrite (split_masks_filter sp xs ys sw H1 H2) in Hs.
  fold R in Hs. unfold out_of in Hs. cbn [x_clean y_clean sw_clean x_missing y_missing sw_missing x_special y_special sw_special] in Hs.
  change (filter (fun r => negb (miss_b r) && negb (spec_b sp r)) R) with C in Hs.
  destruct cut as [[p q]|].
  - unfold mask_others in Hs. rewrite map_map, map_length in Hs.
    assert (Em : map (fun x => count_of (row_x x) (map row_x C) <? zceil (p * Z.of_nat (length C)) q) C
            = map (is_other (Some (p, q)) C) C) by reflexivity.
    rewrite Em in Hs. destruct (any _) eqn:Ea; [|discriminate]. injection Hs as <-. unfold keep_clean.
    cbn [cs_out cs_others cs_y_others cs_sw_others x_clean y_clean sw_clean x_missing y_missing sw_missing x_special y_special sw_special].
    rewrite mnot_map, !select_map_map. repeat split; reflexivity.
  - injection Hs as <-. cbn [cs_out cs_others cs_y_others cs_sw_others x_clean y_clean sw_clean x_missing y_missing sw_missing x_special y_special sw_special].
    unfold K, O. cbn [is_other negb].
    assert (E1 : forall l : list row, filter (fun _ => true) l = l) by (induction l; cbn; congruence).
    assert (E2 : forall l : list row, filter (fun _ => false) l = []) by (induction l; cbn; congruence).
    change (is_other None C) with (fun _ : row => false).
    rewrite E1, E2. repeat split; reflexivity.
Qed.

Lemma is_other_x cut C r r' : row_x r = row_x r' -> is_other cut C r = is_other cut C r'.
Proof. intros E. destruct cut as [[p q]|]; cbn; [now rewrite E|reflexivity]. Qed.

Lemma cat_csamples_rows u cats o (K : list row) :
  x_clean o = map row_x K -> y_clean o = map row_y K -> sw_clean o = map row_w K ->
  cat_csamples u cats o = map (fun r => {| cx := u * Z.of_nat (index_of (num (row_x r)) cats); c0 := y_is0 (row_y r); cw := row_w r |}) K.
Proof.
  intros E1 E2 E3. unfold cat_csamples. rewrite E1, E2, E3. clear. induction K as [|r K IH]; cbn; [reflexivity|]. now rewrite IH.
Qed.
