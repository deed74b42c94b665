(** C47: outlier detection. *)
From Coq Require Import List ZArith QArith Qabs Lia Lqa Bool Arith Permutation Sorting.
From Verif Require Import Model.Arr Model.Core Model.Outlier Spec.CoreSpec Spec.OutlierSpec
  Proofs.ArrP Proofs.OutlierP Proofs.OutlierQ Proofs.OutlierR Proofs.OutlierS.
Import ListNotations.
Open Scope nat_scope.

(** The range detector flags exactly the values more than k interval lengths outside the credible interval, the z-score
    detector exactly the values whose modified z-score exceeds the threshold (with a median deviation of 0: all values but
    the median); get_support(indices=True) lists the flagged positions. *)
Theorem C47_flags : forall d xs m, fit1 d xs = Ok m -> length m = length xs /\
  (forall i x, nth_error xs i = Some x -> exists b, nth_error m i = Some b /\ flag_right d xs x b) /\
  (forall i, In i (support_indices m) <-> nth_error m i = Some true).
Proof.
  intros d xs m H. destruct (fit1_flags d xs m H) as (f & -> & Hf). split; [apply map_length|]. split.
  - intros i x Hx. exists (f x). split; [rewrite nth_error_map, Hx; reflexivity|]. apply Hf. intros ->. destruct i; discriminate.
  - intros i. unfold support_indices. generalize (map f xs). clear. intros m.
    assert (G : forall m o, In i (select m (seq o (length m))) <-> o <= i /\ nth_error m (i - o) = Some true).
    { clear. induction m as [|b m IH]; intros o; cbn [length seq select]; [split; [intros []|intros [_ H]; now destruct (i - o)]|].
      assert (E : In i (if b then o :: select m (seq (S o) (length m)) else select m (seq (S o) (length m))) <->
        (b = true /\ i = o \/ In i (select m (seq (S o) (length m))))).
      { destruct b; cbn [In]; split; [intros [H|H]; auto|intros [[_ H]|H]; auto|intros H; now right|intros [[H _]|H]; [discriminate|exact H]]. }
      rewrite E, IH. split.
      - intros [[-> ->]|[H1 H2]]; [split; [lia|]; now rewrite Nat.sub_diag|]. split; [lia|]. replace (i - o) with (S (i - S o)) by lia. exact H2.
      - intros [H1 H2]. destruct (Nat.eq_dec i o) as [->|Hne]; [left; rewrite Nat.sub_diag in H2; split; [now injection H2 as ->|reflexivity]|].
        right. split; [lia|]. replace (i - o) with (S (i - S o)) in H2 by lia. exact H2. }
    specialize (G m 0). rewrite Nat.sub_0_r in G. rewrite G. split; [tauto|split; [lia|assumption]].
Qed.
Print Assumptions C47_flags.

(** Which parameters are accepted. *)
Theorem C47_fit_succeeds : forall d xs, xs <> [] ->
  (exists m, fit1 d xs = Ok m) <->
  match d with
  | DZScore t => (0 <= t)%Q
  | DRange p => (0 <= r_length p)%Q /\ (r_length p <= 1)%Q /\
                match r_method p with ETI => True | HDI => (r_length p * zq (length xs) <= zq (length xs) - 1)%Q end
  end.
Proof.
  intros d xs Hne. destruct d as [p|t]; cbn [fit1].
  - split.
    + intros (m & H). destruct (range_fit_inv p xs m H) as (H0 & H1 & lb & ub & Hi & _). split; [exact H0|]. split; [exact H1|].
      unfold interval in Hi. destruct (r_method p); [exact I|]. apply hdi_ok in Hi; [|exact H0].
      destruct Hi as (s & k & j & _ & _ & K1 & _ & Hjk & _). assert (zq (S k) <= zq (length xs))%Q by (apply zq_le; lia). rewrite zq_S in H2. lra.
    + intros (H0 & H1 & H2). unfold range_fit. apply Qle_bool_iff in H0 as E0. apply Qle_bool_iff in H1 as E1. rewrite E0, E1. cbn [andb negb].
      assert (G : exists lu, interval p xs = Ok lu).
      { unfold interval. destruct (r_method p); [eexists; reflexivity|]. unfold hdi. set (k := n_included _ _).
        destruct (map2 Z.sub _ _) as [|c cr] eqn:Ec; [|eexists; reflexivity]. exfalso.
        apply (f_equal (@length Z)) in Ec. rewrite map2_length', skipn_length, firstn_length, np_sort_length in Ec. cbn [length] in Ec.
        destruct (n_included_spec (r_length p) (length xs) H0) as [_ K]. fold k in K.
        assert (zq k < zq (length xs))%Q by lra. apply zq_lt in H. lia. }
      destruct G as (lu & ->). cbn [rbind]. eexists. reflexivity.
  - unfold zscore_fit. destruct (Qle_bool 0 t) eqn:E; cbn [negb].
    + apply Qle_bool_iff in E. split; [intros _; exact E|intros _; eexists; reflexivity].
    + split; [intros (m & H); discriminate|]. intros H. apply Qle_bool_iff in H. congruence.
Qed.
Print Assumptions C47_fit_succeeds.

(** With k >= 0 few samples are removed: at most ceil((1-L)(n-1)/2) on each side with "ETI" (a quarter for the default L), and
    the L n + 1 samples of the densest interval stay with "HDI"; with a threshold of at least 0.6745 (default 3.5) the z-score
    removes at most half of the samples. *)
Theorem C47_range_removes_few : forall p xs m, fit1 (DRange p) xs = Ok m -> (0 <= r_k p)%Q -> xs <> [] ->
  match r_method p with
  | ETI => forall K, ((1 - r_length p) * (zq (length xs) - 1) <= 2 * zq K)%Q -> count_true m <= 2 * K
  | HDI => (zq (count_true m) + r_length p * zq (length xs) + 1 <= zq (length xs))%Q
  end.
Proof.
  intros p xs m H Hk Hne. destruct (r_method p) eqn:E; [intros K HK; now apply (eti_count p xs)|now apply hdi_count].
Qed.
Print Assumptions C47_range_removes_few.
Theorem C47_zscore_removes_half : forall t xs m, fit1 (DZScore t) xs = Ok m -> ((6745 # 10000) <= t)%Q -> 2 * count_true m <= length xs.
Proof. intros t xs m H Ht. now apply (zscore_half t). Qed.
Print Assumptions C47_zscore_removes_half.
(** But when more than half of the samples share one value, the z-score removes all the others, whatever the threshold. *)
Theorem C47_zscore_majority : forall t xs m c, fit1 (DZScore t) xs = Ok m -> length xs < 2 * length (filter (Z.eqb c) xs) ->
  m = map (fun x => negb (x =? c)%Z) xs.
Proof. intros t xs m c. apply zscore_majority. Qed.
Print Assumptions C47_zscore_majority.

(** The flags do not depend on the unit of the values nor on the order of the samples. *)
Theorem C47_units : forall d a b xs, (0 < a)%Z -> fit1 d (map (fun x => (a * x + b)%Z) xs) = fit1 d xs.
Proof. intros d a b xs. apply fit1_affine. Qed.
Print Assumptions C47_units.
Theorem C47_order : forall d xs xs' m, Permutation xs xs' -> fit1 d xs = Ok m ->
  exists m', fit1 d xs' = Ok m' /\ Permutation (combine xs m) (combine xs' m').
Proof.
  intros d xs xs' m HP H. destruct (fit1_perm d xs xs' m HP H) as (f & -> & H'). exists (map f xs'). split; [exact H'|].
  rewrite !combine_map. now apply Permutation_map.
Qed.
Print Assumptions C47_order.

(** The y-quantile detector flags a sample iff its target is an outlier among the targets of the samples in the same bin of x,
    the bins being delimited by the distinct i/n quantiles of x. *)
Theorem C47_yquantile_flags : forall d nb xs ys m, yquantile_fit d nb xs ys = Ok m -> xs <> [] -> length xs = length ys ->
  exists splits, quantile_splits (Z.to_nat nb) xs splits /\ length m = length xs /\
  forall i x y, nth_error xs i = Some x -> nth_error ys i = Some y ->
    exists b, nth_error m i = Some b /\ flag_right d (map snd (filter (fun p => same_bin splits x (fst p)) (combine xs ys))) y b.
Proof. exact yquantile_ok. Qed.
Print Assumptions C47_yquantile_flags.

(** In fit, exactly the clean samples that are outliers among the clean values disappear, with target and weight; missing and
    special samples are neither removed nor looked at. *)
Theorem C47_split : forall d sp xs ys sw o, length xs = length ys -> length xs = length sw ->
  split_outliers d sp xs ys sw = Ok o ->
  let o0 := split_masks sp xs ys sw in
  x_missing o = x_missing o0 /\ y_missing o = y_missing o0 /\ sw_missing o = sw_missing o0 /\
  x_special o = x_special o0 /\ y_special o = y_special o0 /\ sw_special o = sw_special o0 /\
  exists out, (forall x, In x (x_clean o0) -> flag_right d (map num (x_clean o0)) (num x) (out x)) /\
    rows (x_clean o) (y_clean o) (sw_clean o) = filter (fun r => negb (out (row_x r))) (rows (x_clean o0) (y_clean o0) (sw_clean o0)).
Proof.
  intros d sp xs ys sw o Hl1 Hl2 H o0. unfold split_outliers in H. fold o0 in H.
  destruct (fit1 d (map num (x_clean o0))) as [m|e] eqn:E; [|discriminate]. cbn [rbind] in H. injection H as <-.
  cbn [keep_clean x_missing y_missing sw_missing x_special y_special sw_special x_clean y_clean sw_clean]. do 6 (split; [reflexivity|]).
  destruct (fit1_flags _ _ _ E) as (f & -> & Hf). exists (fun x => f (num x)). split.
  - intros x Hx. apply Hf. intros E0. apply map_eq_nil in E0. rewrite E0 in Hx. destruct Hx.
  - rewrite map_map. unfold rows, mnot. rewrite map_map. rewrite !combine_select. clear.
    generalize (sw_clean o0), (y_clean o0), (x_clean o0). intros s y x. revert y s. induction x as [|a x IH]; intros [|b y] [|c s]; try reflexivity.
    cbn [map combine select filter row_x fst]. rewrite IH. reflexivity.
Qed.
Print Assumptions C47_split.

Example C47_hyps_met : exists m o, fit1 (DRange default_range) [3; 1; 2; 100; 4]%Z = Ok m /\ m = [false; false; false; true; false] /\
  fit1 (DZScore (7 # 2)) [3; 1; 2; 100; 4]%Z = Ok m /\
  fit1 (DRange {| r_length := 1 # 2; r_k := 1 # 1; r_method := HDI |}) [3; 1; 2; 100; 4]%Z = Ok m /\ support_indices m = [3] /\
  yquantile_fit (DZScore (7 # 2)) 2 [1; 2; 3; 4; 11; 12; 13; 14]%Z [5; 6; 7; 90; 91; 92; 93; 7]%Z = Ok [false; false; false; true; false; false; false; true] /\
  split_outliers (DRange default_range) (SpList [XNum 100]) [XNum 3; XNum 1; XNaN; XNum 2; XNum 50; XNum 4; XNum 100]
    [Y0; Y1; Y0; Y1; Y1; Y0; Y0] [1; 1; 1; 1; 1; 1; 1]%Z = Ok o /\ x_clean o = [XNum 3; XNum 1; XNum 2; XNum 4] /\ x_special o = [XNum 100].
Proof. eexists. eexists. vm_compute. repeat split. Qed.
Example C47_majority_met : exists m, fit1 (DZScore (1000 # 1)) [5; 5; 6; 5; 5; 4]%Z = Ok m /\ m = [false; false; true; false; false; true] /\
  6 < 2 * length (filter (Z.eqb 5) [5; 5; 6; 5; 5; 4]%Z).
Proof. eexists. split; [vm_compute; reflexivity|]. split; [reflexivity|]. cbn. lia. Qed.
