(** Proofs about OptimalBinningSketch.solve (numerical). *)
From Coq Require Import List ZArith Bool QArith Qround Lia Permutation Sorted.
From Verif Require Import Model.Arr Model.Core Model.GK Model.BSketch Model.OptSketch Spec.CoreSpec Spec.GKSpec
  Spec.BSketchSpec Spec.OptSketchSpec Proofs.ArrP Proofs.CoreP Proofs.FitP Proofs.CoreFinal Proofs.GKP Proofs.GKR Proofs.GKI Proofs.GKFinal
  Proofs.BSketchP.
Import ListNotations.
Open Scope Z_scope.

(** weight of the entries up to s *)
Definition wupto (s : Z) (l : list entry) : Z := zsum (map eg (filter (fun t => Z.leb (ev t) s) l)).

Lemma wupto_none s l : Forall (fun t => s < ev t) l -> wupto s l = 0.
Proof.
  unfold wupto. induction 1 as [|t l H _ IH]; [reflexivity|]. cbn [filter].
  destruct (Z.leb_spec (ev t) s); [lia|exact IH].
Qed.

Lemma below_ge_upto s v S : s < v -> upto s S <= below v S.
Proof.
  intros L. unfold upto, below. induction S as [|x S IH]; [reflexivity|]. cbn [filter].
  destruct (Z.leb_spec x s), (Z.ltb_spec x v); cbn [length]; lia.
Qed.

Lemma wupto_rank c s S : 1 <= c -> forall l A, sorted_e l -> le_cap c l -> pranked (bounds S) A l -> A <= upto s S ->
  (Forall (fun x => exists t, In t l /\ x <= ev t) S \/ A = A) ->
  ((exists t, In t l /\ s < ev t) -> upto s S <= A + wupto s l + (c - 1)) /\
  A + wupto s l <= upto s S /\ ((forall t, In t l -> ev t <= s) -> wupto s l = gs l).
Proof.
  intros C. induction l as [|t l IH]; intros A So Ca Pr LA _.
  - split; [intros (t & [] & _)|]. split; [cbn; lia|reflexivity].
  - inversion So as [|? ? So' Ft]; subst. inversion Ca as [|? ? Ct Ca']; subst. cbn [pranked] in Pr.
    destruct Pr as [(P1 & P2 & P3) Pr].
    destruct (Z.leb_spec (ev t) s) as [Le|Gt].
    + assert (W : wupto s (t :: l) = eg t + wupto s l).
      { unfold wupto. cbn [filter]. apply Z.leb_le in Le. rewrite Le. reflexivity. }
      destruct (IH (A + eg t)) as (I1 & I2 & I3); try assumption; [|now right|].
      * pose proof (upto_mono (ev t) s S Le). lia.
      * rewrite W. split; [|split].
        -- intros (u & [<-|Iu] & Gu); [lia|]. assert (K := I1 (ex_intro _ u (conj Iu Gu))). lia.
        -- lia.
        -- intros All. rewrite gs_cons, I3; [reflexivity|]. intros u Iu. apply All. now right.
    + assert (Fa : Forall (fun u => s < ev u) (t :: l)).
      { constructor; [assumption|]. rewrite Forall_forall in *. intros u Iu. specialize (Ft u Iu). lia. }
      rewrite (wupto_none _ _ Fa). split; [|split].
      * intros _. pose proof (below_ge_upto s (ev t) S Gt). lia.
      * lia.
      * intros All. specialize (All t (or_introl eq_refl)). lia.
Qed.

Lemma wupto_accurate e s vals x : (0 < e)%Q -> inv e s vals ->
  upto x vals - slack e (gcount s) <= wupto x (entries (flush s)) <= upto x vals.
Proof.
  intros He I. pose proof (inv_flush e s _ He I) as [B (S & H & P)]. rewrite flush_incoming, app_nil_r in P.
  assert (Ec : gcount (flush s) = gcount s).
  { rewrite (ba_count _ _ _ B). symmetry. apply (ba_count _ _ _ (in_base _ _ _ I)). }
  destruct H. rewrite (upto_perm x _ _ P).
  destruct (wupto_rank (cap (remove_threshold e (gcount (flush s)))) x S) with (l := entries (flush s)) (A := 0) as (I1 & I2 & I3);
    try assumption; [unfold cap; lia|apply upto_nonneg|now left|].
  rewrite Z.add_0_l in *. split; [|lia].
  assert (SL : slack e (gcount s) = cap (remove_threshold e (gcount (flush s))) - 1) by (rewrite Ec; reflexivity).
  rewrite SL.
  destruct (forallb (fun t => Z.leb (ev t) x) (entries (flush s))) eqn:F.
  - rewrite forallb_forall in F. rewrite I3 by (intros t It; apply Z.leb_le; auto). rewrite su_sum.
    pose proof (upto_le x S). unfold cap. lia.
  - assert (Ex : exists t, In t (entries (flush s)) /\ x < ev t).
    { clear - F. induction (entries (flush s)) as [|t l IH]; [discriminate|]. cbn [forallb] in F.
      destruct (Z.leb_spec (ev t) x) as [L|G]; [|exists t; split; [now left|assumption]].
      destruct (IH F) as (u & Iu & Gu). exists u. split; [now right|assumption]. }
    specialize (I1 Ex). lia.
Qed.

(** ** counts of the bins *)
Lemma ss_left_le : forall splits i s v, nondecreasing splits -> nth_error splits i = Some s ->
  ((ss_left splits v <= i)%nat <-> v <= s).
Proof.
  unfold ss_left. induction splits as [|a r IH]; intros i s v N E; [destruct i; discriminate|].
  apply nondecr_inv in N. destruct N as [N La]. cbn [filter]. destruct i as [|i].
  - injection E as <-. destruct (Z.ltb_spec a v) as [L|G]; cbn [length].
    + split; lia.
    + split; [lia|]. intros _.
      assert (Z0 : filter (fun s => Z.ltb s v) r = []).
      { clear - La G. induction r as [|b r IH]; [reflexivity|]. cbn [filter].
        pose proof (La b (or_introl eq_refl)). destruct (Z.ltb_spec b v); [lia|]. apply IH. intros y Iy. apply La. now right. }
      rewrite Z0. cbn. lia.
  - cbn [nth_error] in E. destruct (Z.ltb_spec a v) as [L|G]; cbn [length].
    + rewrite <- (IH i s v N E). lia.
    + pose proof (La s (nth_error_In _ _ E)).
      assert (Z0 : filter (fun s => Z.ltb s v) r = []).
      { clear - La G. induction r as [|b r IH]; [reflexivity|]. cbn [filter].
        pose proof (La b (or_introl eq_refl)). destruct (Z.ltb_spec b v); [lia|]. apply IH. intros y Iy. apply La. now right. }
      rewrite Z0. cbn. split; lia.
Qed.

Lemma filter_split_idx {A} (g : A -> Z) (idx : A -> nat) : forall l k,
  zsum (map (fun i => zsum (map g (filter (fun t => Nat.eqb (idx t) i) l))) (seq 0 k)) =
  zsum (map g (filter (fun t => Nat.ltb (idx t) k) l)).
Proof.
  intros l k. rewrite <- (bins_sum g idx (filter (fun t => Nat.ltb (idx t) k) l) k).
  - f_equal. apply map_ext_in. intros i Ii. apply in_seq in Ii. f_equal. f_equal.
    rewrite filter_filter. apply filter_ext. intros t.
    destruct (Nat.eqb_spec (idx t) i) as [->|]; [|now rewrite ?andb_false_r].
    assert (L : (i <? k)%nat = true) by (apply Nat.ltb_lt; lia). rewrite L. reflexivity.
  - intros t It. apply filter_In in It. destruct It as [_ It]. now apply Nat.ltb_lt in It.
Qed.

Lemma firstn_map_seq {B} (f : nat -> B) k n : (k <= n)%nat -> firstn k (map f (seq 0 n)) = map f (seq 0 k).
Proof.
  intros L. rewrite firstn_map. f_equal. replace n with (k + (n - k))%nat by lia. rewrite seq_app, firstn_app, seq_length.
  rewrite Nat.sub_diag. cbn [firstn]. rewrite app_nil_r. apply firstn_all2. now rewrite seq_length.
Qed.

Lemma gk_bins_cum splits s i x : nondecreasing splits -> nth_error splits i = Some x ->
  zsum (firstn (S i) (gk_bins splits s)) = wupto x (entries (flush s)).
Proof.
  intros N E. assert (L : (i < length splits)%nat) by (apply nth_error_Some; congruence).
  unfold gk_bins. cbv zeta. rewrite firstn_map_seq by lia.
  rewrite (filter_split_idx eg (fun t => ss_left splits (ev t))). unfold wupto. f_equal. f_equal.
  apply filter_ext. intros t. pose proof (ss_left_le splits i x (ev t) N E) as [A B].
  destruct (Nat.ltb_spec (ss_left splits (ev t)) (S i)), (Z.leb_spec (ev t) x); try reflexivity; lia.
Qed.

Lemma gk_bins_length splits s : length (gk_bins splits s) = S (length splits).
Proof. unfold gk_bins. cbv zeta. rewrite map_length, seq_length. lia. Qed.

(** cumulated sums are kept by merging prebins *)
Lemma merge_loop_cum (F : Z -> Z) : forall sol n splits acc c rows,
  length sol = length n -> length n = S (length splits) -> last sol false = true ->
  (forall i x, nth_error splits i = Some x -> c + zsum (firstn (S i) n) = F x) ->
  merge_loop acc sol n = Some rows ->
  forall k x, nth_error (select (init sol) splits) k = Some x -> c - acc + zsum (firstn (S k) rows) = F x.
Proof.
  induction sol as [|b sol IH]; intros n splits acc c rows L1 L2 La H M k x E; [discriminate La|].
  destruct n as [|v n]; [cbn in L1; lia|]. destruct sol as [|b' sol].
  - cbn in E. destruct k; discriminate.
  - destruct splits as [|a splits]; [cbn in L1, L2; lia|].
    assert (La' : last (b' :: sol) false = true) by exact La.
    assert (I0 : c + (v + 0) = F a) by (apply (H 0%nat a eq_refl)).
    assert (H' : forall i x, nth_error splits i = Some x -> (c + v) + zsum (firstn (S i) n) = F x).
    { intros i y Ey. rewrite <- (H (S i) y Ey). cbn [firstn zsum]. lia. }
    assert (In' : init (b :: b' :: sol) = b :: init (b' :: sol)) by reflexivity.
    rewrite In' in E. clear In' La. remember (b' :: sol) as sol' eqn:Es. clear Es b' sol.
    cbn [select] in E. cbn [length] in L1, L2. cbn [merge_loop] in M. destruct b.
    + destruct (merge_loop 0 sol' n) as [rows'|] eqn:M'; [|discriminate]. injection M as <-.
      destruct k as [|k].
      * injection E as <-. cbn [firstn zsum]. lia.
      * cbn [nth_error] in E. rewrite <- (IH n splits 0 (c + v) rows' ltac:(cbn [length]; lia) ltac:(lia) La' H' M' k x E).
        cbn [firstn zsum]. lia.
    + rewrite <- (IH n splits (acc + v) (c + v) rows ltac:(cbn [length]; lia) ltac:(lia) La' H' M k x E). lia.
Qed.

(** ** the quantiles are sorted *)
Lemma flush_nil s : incoming s = [] -> flush s = s.
Proof. intros E. unfold flush. now rewrite E. Qed.
Lemma flush_idem s : flush (flush s) = flush s.
Proof. apply flush_nil. apply flush_incoming. Qed.

Lemma scan_ge bound : forall l g p, sorted_e l -> Forall (fun t => p <= ev t) l ->
  exists v, scan bound g (Some p) l = Some v /\ p <= v.
Proof.
  induction l as [|t l IH]; intros g p So Fa; cbn [scan]; [exists p; split; [reflexivity|lia]|].
  inversion So; subst. inversion Fa; subst. destruct (Z.ltb _ _).
  - exists p. split; [reflexivity|lia].
  - destruct (IH (g + eg t) (ev t)) as (v & E & L); [assumption|assumption|]. exists v. split; [assumption|lia].
Qed.
Lemma scan_mono b b' : b <= b' -> forall l g p v v', sorted_e l -> Forall (fun t => p <= ev t) l ->
  scan b g (Some p) l = Some v -> scan b' g (Some p) l = Some v' -> v <= v'.
Proof.
  intros Lb. induction l as [|t l IH]; intros g p v v' So Fa E E'; cbn [scan] in *; [assert (v = p) by congruence; assert (v' = p) by congruence; lia|].
  inversion So; subst. inversion Fa; subst.
  destruct (Z.ltb_spec b (g + eg t + ed t)) as [L|G].
  - injection E as <-. destruct (Z.ltb b' _).
    + injection E' as <-. lia.
    + destruct (scan_ge b' l (g + eg t) (ev t)) as (w & Ew & Lw); [assumption|assumption|]. rewrite Ew in E'. injection E' as <-. lia.
  - destruct (Z.ltb_spec b' (g + eg t + ed t)); [lia|]. apply (IH (g + eg t) (ev t)); assumption.
Qed.

Lemma quantile_flush s q v s' : quantile s q = Ok (v, s') -> s' = flush s.
Proof.
  unfold quantile. destruct (negb _); [discriminate|]. destruct (Z.eqb _ _); [discriminate|]. cbv zeta.
  destruct (scan _ _ _ _); [|discriminate]. now intros [= _ <-].
Qed.
Lemma gcount_flush s : gcount (flush s) = gcount s.
Proof. unfold flush. destruct (incoming s); [reflexivity|]. reflexivity. Qed.
Lemma eps_flush s : eps (flush s) = eps s.
Proof. unfold flush. destruct (incoming s); reflexivity. Qed.
Lemma gmin_flush s : gmin (flush s) = gmin s.
Proof. unfold flush. destruct (incoming s); reflexivity. Qed.

Lemma quantile_of_flush s q : quantile (flush s) q = quantile s q.
Proof. unfold quantile. cbv zeta. rewrite !flush_idem, !gcount_flush. reflexivity. Qed.

Definition qok (e : Q) (s : gk) : Prop := sorted_e (entries (flush s)) /\
  (gcount s <> 0 -> exists m, gmin s = Some m /\ Forall (fun t => m <= ev t) (entries (flush s))).
Lemma winv_qok e s vals : winv e s vals -> qok e s.
Proof.
  intros W. pose proof (winv_flush e s _ W) as F. split; [apply (wi_sorted _ _ _ F)|]. intros N.
  pose proof (wi_base _ _ _ F) as B. pose proof (ba_min _ _ _ B) as M. rewrite gmin_flush in M.
  destruct (gmin s) as [m|].
  - exists m. split; [reflexivity|]. cbn [is_min_of] in M. destruct M as [_ M]. pose proof (wi_val _ _ _ F) as V.
    rewrite Forall_forall in *. intros t It. auto.
  - cbn in M. subst vals. pose proof (ba_count _ _ _ B) as C. rewrite gcount_flush in C. cbn in C. contradiction.
Qed.

Lemma to_int_mono (x y : Q) : (x <= y)%Q -> to_int x <= to_int y.
Proof. apply Qfloor_resp_le. Qed.

Lemma quantile_mono e s q q' v v' s1 s2 : qok e s -> 1 <= gcount s -> (q <= q')%Q ->
  quantile s q = Ok (v, s1) -> quantile s q' = Ok (v', s2) -> v <= v'.
Proof.
  intros [So M] G1 Lq E E'. destruct (M ltac:(lia)) as (m & Em & Fm).
  unfold quantile in E, E'. destruct (negb (Qle_bool 0 q && Qle_bool q 1)); [discriminate|].
  destruct (negb (Qle_bool 0 q' && Qle_bool q' 1)); [discriminate|].
  destruct (Z.eqb (gcount s) 0); [discriminate|]. cbv zeta in *. rewrite gmin_flush, Em, gcount_flush, eps_flush in *.
  destruct (scan _ 0 (Some m) _) as [w|] eqn:Ew in E; [|discriminate].
  destruct (scan _ 0 (Some m) _) as [w'|] eqn:Ew' in E'; [|discriminate].
  injection E as <- _. injection E' as <- _. eapply scan_mono; [|exact So|exact Fm|exact Ew|exact Ew'].
  apply Z.add_le_mono_r. apply to_int_mono. apply Qplus_le_compat; [|apply Qle_refl].
  apply Qmult_le_compat_r; [assumption|]. change 0%Q with (inject_Z 0). rewrite <- Zle_Qle. lia.
Qed.

Lemma quantiles_flush : forall qs s, quantiles (flush s) qs = match qs with [] => Ok ([], flush s) | _ => quantiles s qs end.
Proof. destruct qs as [|q r]; intros s; [reflexivity|]. cbn [quantiles]. now rewrite quantile_of_flush. Qed.

Lemma quantiles_In : forall qs s vs s', quantiles s qs = Ok (vs, s') ->
  forall v, In v vs -> exists q s2, In q qs /\ quantile s q = Ok (v, s2).
Proof.
  induction qs as [|q r IH]; intros s vs s' E v I; cbn [quantiles] in E.
  - injection E as <- _. destruct I.
  - destruct (quantile s q) as [[w s1]|] eqn:Eq; [|discriminate]. cbn [rbind fst snd] in E.
    pose proof (quantile_flush _ _ _ _ Eq) as ->. rewrite quantiles_flush in E.
    destruct r as [|q' r'].
    + cbn [rbind fst snd] in E. injection E as <- _. destruct I as [->|[]]. exists q, (flush s). split; [now left|assumption].
    + destruct (quantiles s (q' :: r')) as [[ws s2]|] eqn:Er; [|discriminate]. cbn [rbind fst snd] in E. injection E as <- _.
      destruct I as [->|I]; [exists q, (flush s); split; [now left|assumption]|].
      destruct (IH s ws s2 Er v I) as (q2 & s3 & Iq & E3). exists q2, s3. split; [now right|assumption].
Qed.

Lemma quantiles_sorted e : forall qs s vs s', qok e s -> 1 <= gcount s -> StronglySorted Qle qs ->
  quantiles s qs = Ok (vs, s') -> nondecreasing vs /\ length vs = length qs.
Proof.
  induction qs as [|q r IH]; intros s vs s' K G So E; cbn [quantiles] in E.
  - injection E as <- _. split; [constructor|reflexivity].
  - destruct (quantile s q) as [[w s1]|] eqn:Eq; [|discriminate]. cbn [rbind fst snd] in E.
    pose proof (quantile_flush _ _ _ _ Eq) as ->. rewrite quantiles_flush in E. inversion So as [|? ? So' Fq]; subst.
    destruct r as [|q' r'].
    + cbn [rbind fst snd] in E. injection E as <- _. split; [repeat constructor|reflexivity].
    + destruct (quantiles s (q' :: r')) as [[ws s2]|] eqn:Er; [|discriminate]. cbn [rbind fst snd] in E. injection E as <- _.
      destruct (IH s ws s2 K G So' Er) as [S1 L1]. split; [|cbn [length] in *; lia].
      constructor; [assumption|]. apply Forall_forall. intros v Iv.
      destruct (quantiles_In _ _ _ _ Er v Iv) as (q2 & s3 & Iq & E3).
      rewrite Forall_forall in Fq. eapply quantile_mono; [exact K|exact G|exact (Fq q2 Iq)|exact Eq|exact E3].
Qed.

Lemma percentiles_sorted m : StronglySorted Qle (percentiles m).
Proof.
  unfold percentiles. generalize (m - 1)%nat as k. generalize 1%nat as a. intros a k. revert a. induction k as [|k IH]; intros a; cbn [seq map]; [constructor|].
  constructor; [apply IH|]. apply Forall_forall. intros q I. apply in_map_iff in I. destruct I as (j & <- & I). apply in_seq in I.
  unfold Qle. cbn [Qnum Qden]. apply Z.mul_le_mono_nonneg_r; lia.
Qed.

(** ** refinement of the prebins *)
Lemma sk_prebins_spec d b : forall fuel splits splits' nev ev, nondecreasing splits ->
  sk_prebins fuel d b splits = Some (Ok (splits', nev, ev)) ->
  nondecreasing splits' /\ nev = gk_bins splits' (bd_ne b) /\ ev = gk_bins splits' (bd_e b).
Proof.
  induction fuel as [|f IH]; intros splits splits' nev ev N E; [discriminate|]. cbn [sk_prebins] in E.
  destruct (any _ && refines d) eqn:A.
  - destruct splits as [|a r]; [discriminate|]. eapply IH; [|exact E]. now apply select_nondecr.
  - injection E as <- <- <-. auto.
Qed.

Lemma sk_finish_spec solver b splits nev ev f : solver_ok solver -> splits <> [] ->
  length nev = S (length splits) -> length ev = S (length splits) ->
  sk_finish solver b splits nev ev = Ok f ->
  exists sol rn re_, length sol = S (length splits) /\ last sol false = true /\
    merge_loop 0 sol nev = Some rn /\ merge_loop 0 sol ev = Some re_ /\
    sf_splits f = select (init sol) splits /\ sf_prebins f = splits /\
    sf_nev f = rn ++ [bd_sne b; bd_mne b] /\ sf_ev f = re_ ++ [bd_se b; bd_me b].
Proof.
  intros So Ne L1 L2 E. unfold sk_finish in E. cbv zeta in E.
  assert (Ln : (length nev <=? 1)%nat = false) by (apply Nat.leb_gt; destruct splits; [congruence|cbn [length] in *; lia]).
  rewrite Ln in E.
  destruct (So nev ev ltac:(lia) ltac:(destruct splits; [congruence|cbn [length] in *; lia])) as [S1 S2].
  set (sol := solver nev ev) in *. exists sol.
  unfold optimal_splits in E. rewrite Ln in E. destruct splits as [|a r]; [congruence|].
  unfold bin_info_1 in E. destruct sol as [|b0 sol'] eqn:Es; [cbn in S1; lia|]. rewrite <- Es in *.
  destruct (merge_loop_spec 0 sol nev) as (rn & Er & _); [exact S1|].
  destruct (merge_loop_spec 0 sol ev) as (re_ & Ee & _); [lia|].
  rewrite Er, Ee in E. cbn [option_map app map] in E. injection E as <-. exists rn, re_. cbn [sf_splits sf_prebins sf_nev sf_ev].
  rewrite <- L1 in *. unfold trunc. rewrite !Z.quot_1_r. auto 12.
Qed.

Lemma firstn_prefix {A} (l m : list A) k : (k <= length l)%nat -> firstn k (l ++ m) = firstn k l.
Proof. intros L. rewrite firstn_app. replace (k - length l)%nat with 0%nat by lia. cbn. apply app_nil_r. Qed.
