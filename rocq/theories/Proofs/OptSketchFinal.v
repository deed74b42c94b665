From Coq Require Import List ZArith Bool QArith Qround Lia Permutation Sorted.
From Verif Require Import Model.Arr Model.Core Model.GK Model.BSketch Model.OptSketch Spec.CoreSpec Spec.GKSpec
  Spec.BSketchSpec Spec.OptSketchSpec Proofs.ArrP Proofs.CoreP Proofs.FitP Proofs.CoreFinal Proofs.GKP Proofs.GKR Proofs.GKI
  Proofs.GKFinal Proofs.BSketchP Proofs.OptSketchP.
Import ListNotations.
Open Scope Z_scope.

Lemma merge_sketches_spec e he hne me mne se sne g b :
  merge_sketches (sketch_of e he hne me mne se sne) = Ok (g, b) ->
  g = build e (HMerge (HMerge HNew he) hne) /\
  b = sketch_of e (HMerged he HNew) (HMerged hne (HMerge HNew he)) me mne se sne.
Proof.
  unfold merge_sketches, sketch_of. cbn [bd_e bd_ne bd_me bd_mne bd_se bd_sne].
  assert (E : GK.eps (build e he) = e) by apply (ba_eps _ _ _ (wi_base _ _ _ (build_winv e he))). rewrite E.
  cbn [build].
  destruct (gk_merge (gk_new e) (build e he)) as [[a a']|] eqn:E1; [|discriminate]. cbn [rbind fst snd].
  destruct (gk_merge a (build e hne)) as [[c c']|] eqn:E2; [|discriminate]. cbn [rbind fst snd].
  intros [= <- <-]. split; reflexivity.
Qed.

Lemma sk_solve_spec d solver m e he hne me mne se sne f : solver_ok solver ->
  sk_solve d solver m (sketch_of e he hne me mne se sne) = Ok f -> sf_prebins f <> [] ->
  exists sol rn re_,
    let splits := sf_prebins f in
    nondecreasing splits /\ length sol = S (length splits) /\ last sol false = true /\
    merge_loop 0 sol (gk_bins splits (build e (HMerged hne (HMerge HNew he)))) = Some rn /\
    merge_loop 0 sol (gk_bins splits (build e (HMerged he HNew))) = Some re_ /\
    sf_splits f = select (init sol) splits /\
    sf_nev f = rn ++ [sne; mne] /\ sf_ev f = re_ ++ [se; me].
Proof.
  intros So E Ne. unfold sk_solve in E.
  destruct (merge_sketches _) as [[g b]|] eqn:Em; [|discriminate]. cbn [rbind fst snd] in E.
  apply merge_sketches_spec in Em. destruct Em as [-> ->].
  set (g := build e (HMerge (HMerge HNew he) hne)) in *.
  destruct (quantiles g (percentiles m)) as [[ss g']|] eqn:Eq; [|discriminate]. cbn [rbind fst snd] in E.
  set (b := sketch_of e (HMerged he HNew) (HMerged hne (HMerge HNew he)) me mne se sne) in *.
  destruct (sk_prebins (S (length ss)) d b ss) as [[[[splits nev] ev_]|]|] eqn:Ep; try discriminate.
  cbn [rbind fst snd] in E.
  pose proof (build_winv e (HMerge (HMerge HNew he) hne)) as W. fold g in W.
  assert (N : nondecreasing ss).
  { destruct (percentiles m) as [|q r] eqn:Pm.
    - cbn in Eq. injection Eq as <- _. constructor.
    - assert (G1 : 1 <= gcount g).
      { cbn [quantiles] in Eq. unfold quantile in Eq.
        destruct (negb _); [discriminate|]. destruct (Z.eqb_spec (gcount g) 0) as [|Z0]; [discriminate|].
        rewrite (ba_count _ _ _ (wi_base _ _ _ W)) in *. lia. }
      eapply quantiles_sorted; [eapply winv_qok; exact W|exact G1| |exact Eq]. rewrite <- Pm. apply percentiles_sorted. }
  destruct (sk_prebins_spec d b _ _ _ _ _ N Ep) as (N' & -> & ->).
  assert (Ns : splits <> []).
  { intros ->. apply Ne. unfold sk_finish in E. cbv zeta in E.
    destruct (bin_info_1 _ _ _ _ _ _); [|discriminate]. destruct (bin_info_1 _ _ _ _ _ _); [|discriminate]. now injection E as <-. }
  destruct (sk_finish_spec solver b splits _ _ f So Ns (gk_bins_length _ _) (gk_bins_length _ _) E)
    as (sol & rn & re_ & L & La & M1 & M2 & S1 & S2 & T1 & T2).
  exists sol, rn, re_. cbv zeta. rewrite S2. auto 12.
Qed.

Lemma count_true_sel sol (splits : list Z) : length sol = S (length splits) -> last sol false = true ->
  count_true sol = S (length (select (init sol) splits)).
Proof.
  intros L La. rewrite count_true_init; [|destruct sol; [cbn in L; lia|discriminate]|assumption].
  f_equal. rewrite length_select; [reflexivity|]. unfold init. 
  destruct sol as [|b s]; [cbn in L; lia|]. rewrite removelast_firstn_len. rewrite firstn_length. cbn [length] in *. lia.
Qed.

Lemma last_any sol : last sol false = true -> last sol true = true.
Proof. induction sol as [|b s IH]; [discriminate|]. destruct s; [auto|exact IH]. Qed.

Lemma rows_total sol n rows : length sol = length n -> last sol false = true -> merge_loop 0 sol n = Some rows -> zsum rows = zsum n.
Proof.
  intros L La M. rewrite (merge_loop_total 0 sol n rows L (last_any _ La) M); [lia|]. intros ->. discriminate La.
Qed.

Lemma bins_total e h splits : (0 < e)%Q -> lossless e h -> zsum (gk_bins splits (build e h)) = nvals h.
Proof.
  intros He L. rewrite gk_bins_sum. pose proof (weight_exact e (HLen h) He L) as W. unfold weight in W.
  cbn [build gk_len snd] in W. rewrite flush_incoming in W. cbn [length] in W. change (nvals (HLen h)) with (nvals h) in W. lia.
Qed.

Lemma rows_cum e h splits sol rows : (0 < e)%Q -> lossless e h -> nondecreasing splits ->
  length sol = S (length splits) -> last sol false = true ->
  merge_loop 0 sol (gk_bins splits (build e h)) = Some rows ->
  forall k x, nth_error (select (init sol) splits) k = Some x ->
    upto x (values h) - slack e (nvals h) <= zsum (firstn (S k) rows) <= upto x (values h).
Proof.
  intros He Lo N L La M k x E.
  pose proof (build_inv e h He Lo) as I.
  pose proof (merge_loop_cum (fun y => wupto y (entries (flush (build e h)))) sol (gk_bins splits (build e h)) splits 0 0 rows) as C.
  rewrite gk_bins_length in C. specialize (C L eq_refl La).
  assert (C2 : forall i y, nth_error splits i = Some y ->
    0 + zsum (firstn (S i) (gk_bins splits (build e h))) = wupto y (entries (flush (build e h)))).
  { intros i y Ey. rewrite (gk_bins_cum splits _ i y N Ey). lia. }
  specialize (C C2 M k x E). cbv beta in C.
  pose proof (wupto_accurate e (build e h) (values h) x He I) as A.
  assert (G : gcount (build e h) = nvals h) by (apply (ba_count _ _ _ (in_base _ _ _ I))). rewrite G in A. lia.
Qed.

(** exact rows from exact cumulated sums *)
Lemma upto_ss splits vals k x : nondecreasing splits -> nth_error splits k = Some x ->
  upto x vals = countb (fun v => Nat.ltb (ss_left splits v) (S k)) vals.
Proof.
  intros N E. unfold upto, countb. f_equal. f_equal. apply filter_ext. intros v.
  pose proof (ss_left_le splits k x v N E) as [A B].
  destruct (Z.leb_spec v x), (Nat.ltb_spec (ss_left splits v) (S k)); try reflexivity; lia.
Qed.
Lemma countb_lt_S {A} (idx : A -> nat) (l : list A) k :
  countb (fun v => Nat.ltb (idx v) (S k)) l = countb (fun v => Nat.ltb (idx v) k) l + countb (fun v => Nat.eqb (idx v) k) l.
Proof.
  unfold countb. induction l as [|x l IH]; [reflexivity|]. cbn [filter].
  destruct (Nat.ltb_spec (idx x) (S k)), (Nat.ltb_spec (idx x) k), (Nat.eqb_spec (idx x) k); cbn [length]; lia.
Qed.
Lemma countb_all {A} (f : A -> bool) l : (forall x, f x = true) -> countb f l = Z.of_nat (length l).
Proof. intros H. unfold countb. f_equal. f_equal. induction l as [|x l IH]; [reflexivity|]. cbn [filter]. now rewrite H, IH. Qed.
Lemma countb_none {A} (f : A -> bool) l : (forall x, f x = false) -> countb f l = 0.
Proof. intros H. unfold countb. induction l as [|x l IH]; [reflexivity|]. cbn [filter]. now rewrite H. Qed.

Lemma zsum_firstn_S (l : list Z) k : (k < length l)%nat -> zsum (firstn (S k) l) = zsum (firstn k l) + nth k l 0.
Proof.
  revert k; induction l as [|x l IH]; intros k L; [cbn in L; lia|]. destruct k as [|k]; [cbn; lia|].
  cbn [length] in L. assert (H := IH k ltac:(lia)). change (x + zsum (firstn (S k) l) = x + zsum (firstn k l) + nth k l 0). rewrite H. lia.
Qed.

Lemma rows_exact so vals rows : nondecreasing so -> length rows = S (length so) -> zsum rows = Z.of_nat (length vals) ->
  (forall k x, nth_error so k = Some x -> zsum (firstn (S k) rows) = upto x vals) ->
  forall k, (k <= length so)%nat -> nth_error rows k = Some (countb (fun v => Nat.eqb (ss_left so v) k) vals).
Proof.
  intros N L T C k Lk.
  assert (B : forall v, (ss_left so v <= length so)%nat) by (intros v; apply filter_le).
  assert (Cu : forall j, (j <= S (length so))%nat -> zsum (firstn j rows) = countb (fun v => Nat.ltb (ss_left so v) j) vals).
  { intros j Lj. destruct j as [|j].
    - cbn [firstn zsum]. symmetry. apply countb_none. intros v. reflexivity.
    - destruct (nth_error so j) as [x|] eqn:E.
      + rewrite (C j x E). now apply upto_ss.
      + apply nth_error_None in E. rewrite firstn_all2 by lia. rewrite T. symmetry. apply countb_all.
        intros v. apply Nat.ltb_lt. pose proof (B v). lia. }
  assert (Lr : (k < length rows)%nat) by lia.
  rewrite (nth_error_nth' rows 0 Lr). f_equal.
  pose proof (zsum_firstn_S rows k Lr). rewrite !Cu in H by lia. rewrite countb_lt_S in H. lia.
Qed.

Lemma ss_left_digitize splits v : nondecreasing splits -> ~ In v splits -> ss_left splits v = digitize splits v.
Proof.
  intros N I. rewrite (digitize_count splits v N). unfold ss_left. f_equal. clear N.
  induction splits as [|s r IH]; [reflexivity|]. cbn [filter].
  assert (s <> v) by (intros ->; apply I; now left). rewrite IH by (intros K; apply I; now right).
  destruct (Z.ltb_spec s v), (Z.leb_spec s v); try reflexivity; lia.
Qed.
