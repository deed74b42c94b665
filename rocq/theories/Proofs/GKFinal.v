(** Rank guarantee of [quantile] over histories. *)
From Coq Require Import List ZArith Bool QArith Qround Lia Permutation Sorted.
From Verif Require Import Model.Arr Model.GK Spec.GKSpec Proofs.ArrP Proofs.GKP Proofs.GKR Proofs.GKI.
Import ListNotations.
Open Scope Z_scope.

Lemma quantile_guard q : (0 <= q)%Q -> (q <= 1)%Q -> negb (Qle_bool 0 q && Qle_bool q 1) = false.
Proof.
  intros A B. apply Qle_bool_iff in A, B. now rewrite A, B.
Qed.

Lemma rank_range q n : (0 <= q)%Q -> (q <= 1)%Q -> 1 <= n -> 1 <= to_int (q * inject_Z (n - 1) + 1) <= n.
Proof.
  intros A B L. unfold to_int.
  assert (0 <= inject_Z (n - 1))%Q by (change 0%Q with (inject_Z 0); rewrite <- Zle_Qle; lia).
  split.
  - change 1 with (Qfloor 1) at 1. apply Qfloor_resp_le.
    setoid_replace 1%Q with (0 + 1)%Q at 1 by reflexivity. apply Qplus_le_compat; [|apply Qle_refl].
    now apply Qmult_le_0_compat.
  - rewrite <- (Qfloor_Z n) at 2. apply Qfloor_resp_le.
    setoid_replace (inject_Z n) with (1 * inject_Z (n - 1) + 1)%Q.
    + apply Qplus_le_compat; [|apply Qle_refl]. apply Qmult_le_compat_r; assumption.
    + rewrite Qmult_1_l. change 1%Q with (inject_Z 1). rewrite <- inject_Z_plus. f_equiv. lia.
Qed.

Lemma min_has_rank m S : is_minimum m S -> has_rank m S 1.
Proof.
  intros [I F]. unfold has_rank. rewrite below_none by assumption.
  pose proof (below_lt_upto m S I). pose proof (below_nonneg m S). lia.
Qed.

Lemma min_exists e s vals : base e s vals -> vals <> [] -> exists m, gmin s = Some m /\ is_minimum m vals.
Proof.
  intros B N. pose proof (ba_min _ _ _ B) as M. destruct (gmin s) as [m|]; [eauto|]. contradiction.
Qed.

Lemma len_pos {A} (l : list A) : l <> [] -> 1 <= Z.of_nat (length l).
Proof. destruct l; [contradiction|cbn [length]; lia]. Qed.

Lemma has_rank_in v S r : has_rank v S r -> In v S.
Proof.
  unfold has_rank. intros H. destruct (in_dec Z.eq_dec v S) as [I|I]; [assumption|exfalso].
  assert (below v S = upto v S); [|lia]. clear H. unfold below, upto. induction S as [|x S IH]; [reflexivity|].
  cbn [filter]. assert (x <> v) by (intros ->; apply I; now left).
  assert (IH' := IH (fun K => I (or_intror K))).
  destruct (Z.ltb_spec x v), (Z.leb_spec x v); cbn [length]; lia.
Qed.

Lemma quantile_rank e h q : (0 < e)%Q -> (0 <= q)%Q -> (q <= 1)%Q -> lossless e h -> values h <> [] ->
  exists v s r, quantile (build e h) q = Ok (v, s) /\ has_rank v (values h) r /\
    Z.abs (r - Qfloor (q * inject_Z (nvals h - 1) + 1)) <= Qfloor (e * inject_Z (nvals h - 1)).
Proof.
  intros He Q0 Q1 L N. pose proof (build_inv e h He L) as I. set (s0 := build e h) in *.
  unfold quantile. rewrite quantile_guard by assumption.
  pose proof (in_base _ _ _ I) as B0. pose proof (len_pos _ N) as N1.
  destruct (Z.eqb_spec (gcount s0) 0) as [Z0|Z0]; [rewrite (ba_count _ _ _ B0) in Z0; lia|].
  pose proof (inv_flush e s0 _ He I) as [B (S & H & P)]. rewrite flush_incoming, app_nil_r in P.
  destruct (min_exists _ _ _ B N) as (m & Em & Hm). rewrite Em.
  rewrite (ba_eps _ _ _ B). unfold nvals. rewrite <- (ba_count _ _ _ B).
  set (n := gcount (flush s0)) in *.
  assert (En : n = Z.of_nat (length S)) by (unfold n; rewrite (ba_count _ _ _ B), (Permutation_length P); reflexivity).
  assert (N1' : 1 <= n) by (rewrite En, <- (Permutation_length P); exact N1).
  pose proof (rank_range q n Q0 Q1 N1') as RR. pose proof (spread_nonneg e n He N1') as SP.
  pose proof (cap_spread e n He N1') as CS.
  set (rank := to_int (q * inject_Z (n - 1) + 1)) in *. set (sp := to_int (e * inject_Z (n - 1))) in *.
  destruct H.
  destruct (scan_rank S (rank + sp) (cap (remove_threshold e n)) (entries (flush s0)) 0 m) as (v & r & E & HR & L1 & L2);
    try assumption.
  - exists 1. split; [|lia]. eapply has_rank_perm; [exact P|]. now apply min_has_rank.
  - rewrite E. exists v, (flush s0), r. split; [reflexivity|].
    split; [eapply has_rank_perm; [symmetry; exact P|exact HR]|].
    fold (to_int (q * inject_Z (n - 1) + 1)). fold (to_int (e * inject_Z (n - 1))). fold rank sp.
    rewrite su_sum in L2. lia.
Qed.

Lemma scan_full bound S : forall l A p, pranked (bounds S) A l -> Z.of_nat (length S) <= bound ->
  scan bound A (Some p) l = Some (match rev l with [] => p | t :: _ => ev t end).
Proof.
  induction l as [|e l IH]; intros A p R L; [reflexivity|]. cbn [scan pranked rev] in *. destruct R as [R1 R2].
  destruct R1 as (B1 & B2 & B3). destruct (Z.ltb_spec bound (A + eg e + ed e)) as [Lt|Ge]; [lia|].
  rewrite IH by assumption. destruct (rev l); reflexivity.
Qed.

Lemma sorted_last (l : list entry) t r : sorted_e l -> rev l = t :: r -> Forall (fun x => ev x <= ev t) l.
Proof.
  intros So R. assert (E : l = rev r ++ [t]) by (rewrite <- (rev_involutive l), R; reflexivity). subst l.
  clear R. induction (rev r) as [|a m IH]; cbn [app] in *; [repeat constructor; lia|].
  constructor; [|apply IH; now inversion So]. apply sorted_hd in So. rewrite Forall_forall in So.
  apply So. apply in_or_app. right. now left.
Qed.

Lemma quantile_top e h : (0 < e)%Q -> lossless e h -> values h <> [] ->
  exists v s, quantile (build e h) 1 = Ok (v, s) /\ is_maximum v (values h).
Proof.
  intros He L N. pose proof (build_inv e h He L) as I. set (s0 := build e h) in *.
  unfold quantile. rewrite quantile_guard by (unfold Qle; cbn; lia).
  pose proof (in_base _ _ _ I) as B0. pose proof (len_pos _ N) as N1.
  destruct (Z.eqb_spec (gcount s0) 0) as [Z0|Z0]; [rewrite (ba_count _ _ _ B0) in Z0; lia|].
  pose proof (inv_flush e s0 _ He I) as [B (S & H & P)]. rewrite flush_incoming, app_nil_r in P.
  destruct (min_exists _ _ _ B N) as (m & Em & Hm). rewrite Em. rewrite (ba_eps _ _ _ B).
  set (n := gcount (flush s0)) in *.
  assert (En : n = Z.of_nat (length S)) by (unfold n; rewrite (ba_count _ _ _ B), (Permutation_length P); reflexivity).
  assert (N1' : 1 <= n) by (rewrite En, <- (Permutation_length P); exact N1).
  pose proof (spread_nonneg e n He N1') as SP.
  assert (RK : to_int (1 * inject_Z (n - 1) + 1) = n).
  { unfold to_int. rewrite <- (Qfloor_Z n) at 2. apply Qfloor_comp. rewrite Qmult_1_l.
    change 1%Q with (inject_Z 1). rewrite <- inject_Z_plus. f_equiv. lia. }
  rewrite RK. destruct H.
  rewrite (scan_full _ S) by (try assumption; lia).
  destruct (rev (entries (flush s0))) as [|t r] eqn:R.
  { exfalso. apply (f_equal (@rev entry)) in R. rewrite rev_involutive in R. cbn in R. rewrite R in su_sum.
    unfold gs in su_sum; cbn [map zsum] in su_sum. lia. }
  eexists _, _. split; [reflexivity|].
  pose proof (sorted_last _ _ _ su_sorted R) as Mx.
  assert (It : In t (entries (flush s0))) by (rewrite <- (rev_involutive (entries _)), R; apply in_rev; rewrite rev_involutive; now left).
  split.
  - eapply Permutation_in; [symmetry; exact P|]. rewrite Forall_forall in su_val. auto.
  - eapply Permutation_Forall; [symmetry; exact P|]. apply Forall_forall. intros x Ix.
    rewrite Forall_forall in su_top, Mx. destruct (su_top x Ix) as (t' & It' & Lt'). specialize (Mx t' It'). lia.
Qed.

Lemma scan_some bound : forall l A p, exists v, scan bound A (Some p) l = Some v /\ (v = p \/ In v (map ev l)).
Proof.
  induction l as [|e l IH]; intros A p; cbn [scan]; [eauto|].
  destruct (Z.ltb _ _); [eauto|]. destruct (IH (A + eg e) (ev e)) as (v & E & [->|H]); exists v || exists (ev e).
  - split; [assumption|]. right. now left.
  - split; [assumption|]. right. now right.
Qed.

Lemma quantile_added e h q : (0 <= q)%Q -> (q <= 1)%Q -> values h <> [] ->
  exists v s, quantile (build e h) q = Ok (v, s) /\ In v (values h).
Proof.
  intros Q0 Q1 N. pose proof (build_winv e h) as I. set (s0 := build e h) in *.
  unfold quantile. rewrite quantile_guard by assumption.
  pose proof (wi_base _ _ _ I) as B0. pose proof (len_pos _ N) as N1.
  destruct (Z.eqb_spec (gcount s0) 0) as [Z0|Z0]; [rewrite (ba_count _ _ _ B0) in Z0; lia|].
  pose proof (winv_flush e s0 _ I) as W. pose proof (wi_base _ _ _ W) as B.
  destruct (min_exists _ _ _ B N) as (m & Em & Hm). rewrite Em.
  match goal with |- context [scan ?b 0 (Some m) ?l] => destruct (scan_some b l 0 m) as (v & E & D) end.
  rewrite E. eexists _, _. split; [reflexivity|]. destruct D as [->|D]; [apply Hm|].
  apply in_map_iff in D. destruct D as (t & <- & It). pose proof (wi_val _ _ _ W) as V. rewrite Forall_forall in V. auto.
Qed.

Lemma weight_exact e h : (0 < e)%Q -> lossless e h -> weight (build e h) = nvals h.
Proof.
  intros He L. destruct (build_inv e h He L) as [B (S & H & P)]. unfold weight, nvals.
  change (zsum (map eg (entries (build e h)))) with (gs (entries (build e h))).
  rewrite (su_sum _ _ _ _ H), (Permutation_length P), app_length. lia.
Qed.

Lemma weight_ge e h : nvals h <= weight (build e h).
Proof. pose proof (build_winv e h) as W. unfold weight, nvals. apply (wi_sum _ _ _ W). Qed.
