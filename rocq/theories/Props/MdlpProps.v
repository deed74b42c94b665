(** C31: MDLP prebinning. *)
From Coq Require Import List ZArith Bool Lia Lra Reals Sorting Permutation.
From Verif Require Import Model.Arr Model.Multi Model.Core Model.Mdlp Model.MdlpR Spec.CoreSpec Spec.MdlpSpec Proofs.MultiP Proofs.MdlpP.
Import ListNotations.
Open Scope Z_scope.

(** Whatever the entropy gain and the stopping rule compute, a fit of a fresh object terminates and its splits are strictly
    increasing, each splits between two sample values, and if there is a split at all every interval (s_i, s_{i+1}] has at
    least min_samples_leaf samples. *)
Theorem C31_valid_splits :
  forall (G : Type) (zero : G) (gtb : G -> G -> bool) gain criterion mc leaf min_split (d : list xy),
  (1 <= mc)%nat -> (1 <= leaf)%nat -> sorted_by_x d ->
  exists state, mdlp_fit zero gtb gain criterion mc leaf min_split [] d = Some state /\
    let ss := mdlp_splits state in
    increasing ss /\
    (forall s, In s ss -> exists a b, In a d /\ In b d /\ unit mc * fst a <= s < unit mc * fst b) /\
    (ss <> [] -> forall i, (i <= length ss)%nat -> (leaf <= leaf_size (unit mc) ss d i)%nat).
Proof.
  intros G zero gtb gain criterion mc leaf ms d Hmc Hl Hd.
  destruct (recurse_total zero gtb gain criterion mc leaf ms Hl (S (length d)) d []) as [st E]; [lia|].
  exists st. split; [exact E|]. destruct (recurse_cut zero gtb gain criterion mc leaf ms Hmc _ _ _ _ Hd E) as (new & ns & cs & -> & P & C).
  pose proof (unit_pos mc Hmc) as HU. cbn [app].
  assert (E' : mdlp_splits new = ns).
  { apply sorted_perm_unique; [apply mdlp_splits_sorted| |].
    - apply increasing_nondecreasing. eapply cut_increasing; eauto.
    - rewrite mdlp_splits_perm. exact P. }
  cbv zeta. rewrite E'. split; [eapply cut_increasing; eauto|]. split.
  - intros s Hs. destruct (cut_between _ _ Hl _ _ _ C s Hs) as (a & b & ? & ? & ? & ?). exists a, b. auto.
  - intros Hne i Hi. eapply cut_count; eauto. inversion C; subst; [congruence|]. rewrite app_length. lia.
Qed.
Print Assumptions C31_valid_splits.

(** Data with a single class, or a single value, are not split. *)
Theorem C31_pure_not_split :
  forall (G : Type) (zero : G) (gtb : G -> G -> bool) gain criterion mc leaf min_split (d : list xy),
  (forall a b, In a d -> In b d -> snd a = snd b) ->
  mdlp_fit zero gtb gain criterion mc leaf min_split [] d = Some [].
Proof.
  intros G zero gtb gain criterion mc leaf ms d H. unfold mdlp_fit. cbn [recurse]. unfold find_split.
  rewrite (candidates_pure mc d H). reflexivity.
Qed.
Print Assumptions C31_pure_not_split.

Theorem C31_constant_not_split :
  forall (G : Type) (zero : G) (gtb : G -> G -> bool) gain criterion mc leaf min_split (d : list xy),
  (1 <= mc)%nat -> (1 <= leaf)%nat -> sorted_by_x d -> (forall a b, In a d -> In b d -> fst a = fst b) ->
  mdlp_fit zero gtb gain criterion mc leaf min_split [] d = Some [].
Proof.
  intros G zero gtb gain criterion mc leaf ms d Hmc Hl Hd H.
  destruct (C31_valid_splits G zero gtb gain criterion mc leaf ms d Hmc Hl Hd) as (st & E & _ & B & _).
  rewrite E. f_equal. destruct st as [|s st]; [reflexivity|]. exfalso.
  destruct (B s) as (a & b & Ha & Hb & K1 & K2).
  { eapply Permutation_in; [symmetry; apply mdlp_splits_perm|now left]. }
  rewrite (H a b Ha Hb) in K1. lia.
Qed.
Print Assumptions C31_constant_not_split.

(** With the real entropies: the first split found lies among the candidates, leaves min_samples_leaf samples on both sides,
    has positive entropy gain, and no midpoint between neighbouring samples of different labels (that leaves enough samples)
    has a larger gain, as long as there are at most max_candidates such midpoints. *)
Theorem C31_first_split_maximises_gain : forall mc leaf min_split d s rest,
  (1 <= mc)%nat -> sorted_by_x d -> fit_real mc leaf min_split [] d = Some (s :: rest) ->
  let u := unit mc in
  leaves_enough u leaf d s /\
  (0 < entropy_gain (labels d) (labels (below u s d)) (labels (above u s d)))%R /\
  ((length (np_unique (changes d)) <= mc)%nat ->
   forall i a b, nth_error d i = Some a -> nth_error d (S i) = Some b -> snd a <> snd b ->
   let m := pden mc * (fst a + fst b) in
   leaves_enough u leaf d m ->
   (entropy_gain (labels d) (labels (below u m d)) (labels (above u m d)) <=
    entropy_gain (labels d) (labels (below u s d)) (labels (above u s d)))%R).
Proof.
  intros mc leaf ms d s rest Hmc Hd H u. unfold fit_real, mdlp_fit in H. cbn [recurse] in H.
  assert (Hs : find_split 0%R Rgtb entropy_gain mc leaf d = Some s).
  { destruct (find_split 0%R Rgtb entropy_gain mc leaf d) as [s0|] eqn:E; [|discriminate]. cbv zeta in H.
    destruct (terminate mdl_rejects ms d (ss_right mc d s0)); [now injection H as -> _|].
    destruct (recurse _ _ _ _ _ _ _ _ (firstn _ d) _) as [r1|] eqn:R1; [|discriminate].
    apply recurse_cut in R1; [|assumption|apply sorted_firstn; exact Hd].
    apply recurse_cut in H; [|assumption|apply sorted_skipn; exact Hd].
    destruct R1 as (n1 & _ & _ & -> & _). destruct H as (n2 & _ & _ & H & _). cbn [app] in H. now injection H as -> _. }
  assert (GE : forall x, gain_at entropy_gain mc d x =
     entropy_gain (labels d) (labels (below u x d)) (labels (above u x d))).
  { intros x. unfold gain_at. rewrite firstn_ss_filter, skipn_ss_filter by assumption. reflexivity. }
  assert (AE : forall x, admissible mc leaf d x <-> leaves_enough u leaf d x).
  { intros x. unfold admissible, leaves_enough, below, above, u. rewrite <- firstn_ss_filter, <- skipn_ss_filter by assumption.
    rewrite firstn_length, skipn_length. pose proof (ss_right_le mc d x). lia. }
  pose proof (best_max Rgtb entropy_gain) as BM.
  assert (I : forall a, Rgtb a a = false) by (intros; unfold Rgtb; destruct (Rgt_dec a a); [lra|reflexivity]).
  assert (T : forall a b c, Rgtb a b = true -> Rgtb b c = true -> Rgtb a c = true).
  { intros a b c. unfold Rgtb. destruct (Rgt_dec a b), (Rgt_dec b c), (Rgt_dec a c); try discriminate; auto; lra. }
  unfold find_split in Hs. apply (BM I T) in Hs.
  destruct Hs as [[? _]|(s' & [= <-] & _ & Ha & Hg & Hmax)]; [discriminate|].
  split; [now apply AE|]. split.
  - rewrite GE in Hg. unfold Rgtb in Hg. destruct (Rgt_dec _ 0); [lra|discriminate].
  - intros Hlen i a b Ia Ib Hn m Hm. unfold m in *. rewrite <- !GE.
    specialize (Hmax (pden mc * (fst a + fst b))). unfold Rgtb in Hmax.
    destruct (Rgt_dec (gain_at entropy_gain mc d (pden mc * (fst a + fst b))) (gain_at entropy_gain mc d s)) as [K|K]; [|lra].
    exfalso. assert (true = false); [|discriminate]. apply Hmax; [|now apply AE].
    unfold candidates. destruct (Nat.ltb_spec mc (length (np_unique (changes d)))); [lia|].
    apply in_map_iff. exists (fst a + fst b). split; [lia|]. apply np_unique_In. eapply changes_nth; eauto.
Qed.
Print Assumptions C31_first_split_maximises_gain.

(** A second fit of the same object starts from the first one's splits: the result is the two split lists merged. *)
Theorem C31_refit_accumulates :
  forall (G : Type) (zero : G) (gtb : G -> G -> bool) gain criterion mc leaf min_split (d1 d2 : list xy),
  (1 <= mc)%nat -> (1 <= leaf)%nat -> sorted_by_x d1 -> sorted_by_x d2 ->
  let fit := mdlp_fit zero gtb gain criterion mc leaf min_split in
  exists s1 s2 s12, fit [] d1 = Some s1 /\ fit [] d2 = Some s2 /\ fit s1 d2 = Some s12 /\
    mdlp_splits s12 = mdlp_splits (mdlp_splits s1 ++ mdlp_splits s2).
Proof.
  intros G zero gtb gain criterion mc leaf ms d1 d2 Hmc Hl H1 H2 fit.
  assert (app : forall fuel d sp, recurse zero gtb gain criterion fuel mc leaf ms d sp =
     match recurse zero gtb gain criterion fuel mc leaf ms d [] with Some r => Some (sp ++ r) | None => None end).
  { induction fuel as [|f IH]; intros d sp; [reflexivity|]. cbn [recurse]. destruct (find_split _ _ _ _ _ _) as [s|].
    2:{ now rewrite app_nil_r. }
    cbv zeta. destruct (terminate _ _ _ _); [reflexivity|]. rewrite (IH (firstn _ _) (sp ++ [s])), (IH (firstn _ _) ([] ++ [s])).
    destruct (recurse _ _ _ _ f mc leaf ms (firstn _ _) []) as [r1|]; [|reflexivity].
    rewrite (IH (skipn _ _) ((sp ++ [s]) ++ r1)), (IH (skipn _ _) (([] ++ [s]) ++ r1)).
    destruct (recurse _ _ _ _ f mc leaf ms (skipn _ _) []) as [r2|]; [|reflexivity]. now rewrite <- !app_assoc. }
  destruct (recurse_total zero gtb gain criterion mc leaf ms Hl (S (length d1)) d1 []) as [s1 E1]; [lia|].
  destruct (recurse_total zero gtb gain criterion mc leaf ms Hl (S (length d2)) d2 []) as [s2 E2]; [lia|].
  exists s1, s2, (s1 ++ s2). split; [exact E1|]. split; [exact E2|]. split.
  - unfold fit, mdlp_fit in *. rewrite app, E2. reflexivity.
  - apply sorted_perm_unique; [apply mdlp_splits_sorted|apply mdlp_splits_sorted|].
    rewrite !mdlp_splits_perm. reflexivity.
Qed.
Print Assumptions C31_refit_accumulates.

(** Four samples: values 1 1 2 2 with labels 0 1 1 1. The only candidate is the midpoint 1 of the two equal values. *)
Definition ex_d : list xy := [(1, 0%nat); (1, 1%nat); (2, 1%nat); (2, 1%nat)].
Lemma ex_sorted : sorted_by_x ex_d.
Proof. unfold sorted_by_x, ex_d. repeat (constructor; [|repeat constructor; cbn; lia]). constructor. Qed.
Lemma ex_entropy_all : entropy (labels ex_d) = (2 * ln 2 - 3 / 4 * ln 3)%R.
Proof.
  unfold entropy, xlogy. cbn [labels map snd ex_d length list_sum fold_right Nat.add INR].
  destruct (Req_EM_T _ 0); [lra|]. destruct (Req_EM_T _ 0); [lra|].
  replace ((1 + 1 + 1 + 1 - (1 + 1 + 1)) / (1 + 1 + 1 + 1))%R with (/ (2 * 2))%R by lra.
  replace ((1 + 1 + 1) / (1 + 1 + 1 + 1))%R with (3 * / (2 * 2))%R by lra.
  rewrite ln_mult, ln_Rinv, ln_mult by lra. lra.
Qed.
Lemma ex_entropy_left : entropy [0%nat; 1%nat] = ln 2.
Proof.
  unfold entropy, xlogy. cbn [length list_sum fold_right Nat.add INR].
  destruct (Req_EM_T _ 0); [lra|]. destruct (Req_EM_T _ 0); [lra|].
  replace ((1 + 1 - 1) / (1 + 1))%R with (/ 2)%R by lra. replace (1 / (1 + 1))%R with (/ 2)%R by lra.
  rewrite ln_Rinv by lra. lra.
Qed.
Lemma ex_entropy_right : entropy [1%nat; 1%nat] = 0%R.
Proof.
  unfold entropy, xlogy. cbn [length list_sum fold_right Nat.add INR].
  destruct (Req_EM_T _ 0); [|lra]. destruct (Req_EM_T _ 0); [lra|].
  replace ((1 + 1) / (1 + 1))%R with 1%R by lra. rewrite ln_1. lra.
Qed.
Lemma ex_gain : entropy_gain (labels ex_d) [0%nat; 1%nat] [1%nat; 1%nat] = (3 / 2 * ln 2 - 3 / 4 * ln 3)%R.
Proof.
  unfold entropy_gain. rewrite ex_entropy_all, ex_entropy_left, ex_entropy_right.
  cbn [labels map snd ex_d length INR]. lra.
Qed.
Lemma ln3_lt : (ln 3 < 2 * ln 2)%R.
Proof. replace (2 * ln 2)%R with (ln 2 + ln 2)%R by lra. rewrite <- ln_mult by lra. apply ln_increasing; lra. Qed.
(** the MDL criterion rejects the split *)
Lemma ex_rejected : mdl_rejects (labels ex_d) [0%nat; 1%nat] [1%nat; 1%nat] = true.
Proof.
  unfold mdl_rejects. destruct (Rle_dec _ _) as [|n]; [reflexivity|exfalso; apply n].
  rewrite ex_gain, ex_entropy_all, ex_entropy_left, ex_entropy_right.
  change (n_classes (labels ex_d)) with 2%nat. change (n_classes [0%nat; 1%nat]) with 2%nat. change (n_classes [1%nat; 1%nat]) with 2%nat.
  cbn [labels map snd ex_d length INR].
  replace (3 ^ 2 - 2)%R with 7%R by lra. replace (1 + 1 + 1 + 1 - 1)%R with 3%R by lra.
  assert (K : (8 * ln 2 <= 11 / 2 * ln 3 + ln 7)%R).
  { assert (ln 2 <= ln 3)%R by (left; apply ln_increasing; lra).
    assert (ln 7 >= 2 * ln 2)%R.
    { replace (2 * ln 2)%R with (ln 2 + ln 2)%R by lra. rewrite <- ln_mult by lra. apply Rle_ge. left. apply ln_increasing; lra. }
    assert (2 * ln 3 >= 3 * ln 2)%R.
    { replace (2 * ln 3)%R with (ln 3 + ln 3)%R by lra. replace (3 * ln 2)%R with (ln 2 + (ln 2 + ln 2))%R by lra.
      rewrite <- !ln_mult by lra. apply Rle_ge. left. apply ln_increasing; lra. }
    assert (0 < ln 2)%R by (rewrite <- ln_1; apply ln_increasing; lra). lra. }
  lra.
Qed.
Lemma ex_find : find_split 0%R Rgtb entropy_gain 32 2 ex_d = Some (unit 32 * 1).
Proof.
  unfold find_split. change (candidates 32 ex_d) with [unit 32 * 1]. cbn [best_split].
  change (ss_right 32 ex_d (unit 32 * 1)) with 2%nat. change (length ex_d) with 4%nat. cbn [Nat.leb andb Nat.sub].
  cbv zeta. change (map snd (firstn 2 ex_d)) with [0%nat; 1%nat]. change (map snd (skipn 2 ex_d)) with [1%nat; 1%nat].
  change (map snd ex_d) with (labels ex_d). rewrite ex_gain. unfold Rgtb.
  destruct (Rgt_dec _ 0) as [|n]; [reflexivity|]. exfalso. apply n. pose proof ln3_lt. lra.
Qed.
Lemma ex_fit ms st : fit_real 32 2 ms st ex_d = Some (st ++ [unit 32 * 1]).
Proof.
  unfold fit_real, mdlp_fit. cbn [length ex_d recurse]. fold ex_d. rewrite ex_find. cbv zeta.
  assert (E : terminate mdl_rejects ms ex_d (ss_right 32 ex_d (unit 32 * 1)) = true); [|now rewrite E].
  unfold terminate. change (ss_right 32 ex_d (unit 32 * 1)) with 2%nat.
  change (map snd (firstn 2 ex_d)) with [0%nat; 1%nat]. change (map snd (skipn 2 ex_d)) with [1%nat; 1%nat].
  change (map snd ex_d) with (labels ex_d). rewrite ex_rejected. reflexivity.
Qed.
(** Fitting twice the same data with the same object duplicates the split. *)
Theorem C31_refit_refuted : exists d s1 s12, sorted_by_x d /\ fit_real 32 2 2 [] d = Some s1 /\
  fit_real 32 2 2 s1 d = Some s12 /\ mdlp_splits s12 <> mdlp_splits s1 /\ ~ increasing (mdlp_splits s12).
Proof.
  exists ex_d, [unit 32 * 1], [unit 32 * 1; unit 32 * 1]. split; [apply ex_sorted|]. split; [apply ex_fit|].
  split; [apply (ex_fit 2 [unit 32 * 1])|]. split; [discriminate|]. intros H. inversion H as [|? ? _ F]; subst.
  inversion F; subst. vm_compute in H2. discriminate.
Qed.
Print Assumptions C31_refit_refuted.
(** The first split is kept although the MDL stopping criterion rejects it and although the node has fewer distinct values and
    samples than min_samples_split. *)
Theorem C31_stopping_rule_ignored_at_root_refuted : exists d s, sorted_by_x d /\ (length d < 100)%nat /\
  fit_real 32 2 100 [] d = Some [s] /\
  mdl_rejects (labels d) (labels (below (unit 32) s d)) (labels (above (unit 32) s d)) = true.
Proof.
  exists ex_d, (unit 32 * 1). split; [apply ex_sorted|]. split; [cbn; lia|]. split; [apply (ex_fit 100 [])|].
  change (labels (below (unit 32) (unit 32 * 1) ex_d)) with [0%nat; 1%nat].
  change (labels (above (unit 32) (unit 32 * 1) ex_d)) with [1%nat; 1%nat]. apply ex_rejected.
Qed.
Print Assumptions C31_stopping_rule_ignored_at_root_refuted.
(** The leaves are right-closed but transform's bins are left-closed: with tied values a bin can be empty although
    min_samples_leaf = 2. *)
Theorem C31_bins_smaller_than_leaf_refuted : exists d s1, sorted_by_x d /\ fit_real 32 2 2 [] d = Some s1 /\
  exists i, (i <= length (mdlp_splits s1))%nat /\ transform_bin_size (unit 32) (mdlp_splits s1) d i = 0%nat.
Proof. exists ex_d, [unit 32 * 1]. split; [apply ex_sorted|]. split; [apply ex_fit|]. exists 0%nat. split; [cbn; lia|reflexivity]. Qed.
Print Assumptions C31_bins_smaller_than_leaf_refuted.

Example C31_hyps_met : sorted_by_x ex_d /\ fit_real 32 2 2 [] ex_d = Some [unit 32 * 1] /\
  leaf_size (unit 32) [unit 32 * 1] ex_d 0 = 2%nat.
Proof. split; [apply ex_sorted|]. split; [apply ex_fit|reflexivity]. Qed.
(** a run with several splits (a toy gain): intervals 1-2 | 3-4 | 5-6 | 7-8 *)
Definition toy_gain (y a b : list nat) : nat := if (list_sum a * length b =? list_sum b * length a)%nat then 0 else 1.
Example C31_several_splits :
  mdlp_fit 0%nat (fun a b => Nat.ltb b a) toy_gain (fun _ _ _ => false) 32 2 2 []
    [(1,0%nat);(2,0%nat);(3,1%nat);(4,1%nat);(5,0%nat);(6,0%nat);(7,1%nat);(8,1%nat)]
  = Some (map (fun z => z * pden 32) [5; 9; 13]).
Proof. vm_compute. reflexivity. Qed.
