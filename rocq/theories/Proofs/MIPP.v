From Coq Require Import List ZArith Bool Arith Reals Lra Lia QArith Qreals.
From Verif Require Import Model.Arr Model.Core Model.Metrics Model.CP Model.MIP Spec.CPSpec Spec.CPFitSpec
  Proofs.MetricsP Proofs.MetricsQ Proofs.CPP Proofs.CPC Proofs.CPTable Proofs.CPFinal.
Import ListNotations.
Open Scope R_scope.

Lemma sumr_IZR lo hi (f : nat -> Z) : sumr lo hi (fun k => IZR (f k)) = IZR (sum_range lo hi f).
Proof.
  unfold sumr, sum_range. generalize (seq lo (hi - lo)). induction l as [|a l IH]; [reflexivity|].
  cbn [map zsum]. change (IZR (f a) + rsum (map (fun k => IZR (f k)) l) = IZR (f a + zsum (map f l))). now rewrite IH, plus_IZR.
Qed.
Lemma sumr_ext lo hi f g : (forall k, (lo <= k < hi)%nat -> f k = g k) -> sumr lo hi f = sumr lo hi g.
Proof.
  intros H. unfold sumr. apply rsum_ext. intros k Hk. apply in_seq in Hk. apply H. lia.
Qed.
Lemma sumr_scal lo hi c f : sumr lo hi (fun k => c * f k) = c * sumr lo hi f.
Proof.
  unfold sumr. generalize (seq lo (hi - lo)). induction l as [|a l IH]; [cbn; lra|].
  cbn [map]. change (c * f a + rsum (map (fun k => c * f k) l) = c * (f a + rsum (map f l))). rewrite IH. lra.
Qed.

(** *** scaled rates *)
Section Bridge.
Variables (n : nat) (D : rmat) (D' : mat) (M : Z) (X : mat).
Hypothesis HM : (0 < M)%Z.
Hypothesis HD : forall i j, (i < n)%nat -> (j <= i)%nat -> IZR (D' i j) = IZR M * D i j.
Lemma MR : 0 < IZR M. Proof. now apply IZR_lt. Qed.
Lemma tele_scaled i : (i < n)%nat -> IZR (tele D' X i) = IZR M * teleR D X i.
Proof.
  intros Hi. unfold tele, teleR. rewrite <- sumr_IZR, <- sumr_scal. apply sumr_ext. intros j Hj.
  rewrite mult_IZR, minus_IZR, !HD by lia. ring.
Qed.
Lemma le0_scaled (z : Z) (r : R) : IZR z = IZR M * r -> (z <= 0)%Z <-> r <= 0.
Proof.
  intros E. pose proof MR. split; intros H0.
  - apply IZR_le in H0. rewrite E in H0. apply Rmult_le_reg_l with (IZR M); [assumption|]. lra.
  - apply le_IZR. rewrite E. assert (IZR M * r <= IZR M * 0) by (apply Rmult_le_compat_l; lra). lra.
Qed.
Lemma ge0_scaled (z : Z) (r : R) : IZR z = IZR M * r -> (z >= 0)%Z <-> r >= 0.
Proof.
  intros E. pose proof (le0_scaled (- z) (- r)) as H. rewrite opp_IZR, E in H. specialize (H ltac:(ring)).
  split; intros H0; [assert (- r <= 0) by (apply H; lia); lra|]. assert (- z <= 0)%Z by (apply H; lra). lia.
Qed.
Ltac izr := rewrite ?minus_IZR, ?plus_IZR, ?mult_IZR, ?minus_IZR, ?plus_IZR, ?mult_IZR, ?minus_IZR, ?plus_IZR.
Lemma asc_bridge i z : (i < n)%nat -> (z < n)%nat -> asc_constr D' X M i z <-> asc_constrR D X i z.
Proof.
  intros Hi Hz. unfold asc_constr, asc_constrR. apply le0_scaled. izr. rewrite !tele_scaled, !HD by lia. ring.
Qed.
Lemma desc_bridge i z : (i < n)%nat -> (z < n)%nat -> desc_constr D' X M i z <-> desc_constrR D X i z.
Proof.
  intros Hi Hz. unfold desc_constr, desc_constrR. apply le0_scaled. izr. rewrite !tele_scaled, !HD by lia. ring.
Qed.
Lemma gt0_scaled (z : Z) (r : R) : IZR z = IZR M * r -> (z > 0)%Z <-> r > 0.
Proof.
  intros E. pose proof (le0_scaled z r E) as H. split; intros H0.
  - apply Rnot_le_gt. intros Hc. apply H in Hc. lia.
  - apply Z.lt_gt. apply Z.nle_gt. intros Hc. apply H in Hc. lra.
Qed.
Lemma lt0_scaled (z : Z) (r : R) : IZR z = IZR M * r -> (z < 0)%Z <-> r < 0.
Proof.
  intros E. pose proof (gt0_scaled (- z) (- r)) as H. rewrite opp_IZR, E in H. specialize (H ltac:(ring)).
  split; intros H0; [assert (- r > 0) by (apply H; lia); lra|]. assert (- z > 0)%Z by (apply H; lra). lia.
Qed.
Lemma preproc_bridge lo hi jlo (cmp : Z -> Prop) (cmpR : R -> Prop) : (hi <= n)%nat ->
  (forall z r, IZR z = IZR M * r -> cmp z <-> cmpR r) -> preproc lo hi jlo cmp D' X <-> preprocR lo hi jlo cmpR D X.
Proof.
  intros Hhi Hc. unfold preproc, preprocR.
  assert (E : forall i, (i < hi - 1)%nat -> cmp (D' (S i) i - D' (S i) (S i))%Z <-> cmpR (D (S i) i - D (S i) (S i))).
  { intros i Hi. apply Hc. rewrite minus_IZR, !HD by lia. ring. }
  assert (E2 : forall i j, (i < hi - 1)%nat -> (j < hi - i - 1)%nat ->
    cmp (D' (i + 1 + j)%nat i - D' (i + 1 + j)%nat (i + 1 + j)%nat)%Z <-> cmpR (D (i + 1 + j)%nat i - D (i + 1 + j)%nat (i + 1 + j)%nat)).
  { intros i j Hi Hj. apply Hc. rewrite minus_IZR, !HD by lia. ring. }
  split; intros H i H1 H2 H3; (destruct (H i H1 H2) as (A & B); [now apply E|]); (split; [exact A|]); intros j J1 J2 J3; apply B; try assumption; now apply E2.
Qed.
Lemma row_rate_scaled i : (i < n)%nat -> IZR (row_rate D' X i) = IZR M * row_rateR D X i.
Proof. intros Hi. unfold row_rate, row_rateR. rewrite plus_IZR, mult_IZR, tele_scaled, HD by lia. ring. Qed.
Lemma ge_scaled (z w : Z) (r s : R) : IZR z = IZR M * r -> IZR w = IZR M * s -> (z >= w)%Z <-> r >= s.
Proof.
  intros E F. pose proof (ge0_scaled (z - w) (r - s)) as H. rewrite minus_IZR, E, F in H. specialize (H ltac:(ring)).
  split; intros H0; [assert (r - s >= 0) by (apply H; lia); lra|]. assert (z - w >= 0)%Z by (apply H; lra). lia.
Qed.
Lemma trend_bridge g : (forall tc, g_trend g = TPeakHeuristic tc \/ g_trend g = TValleyHeuristic tc -> (tc <= n)%nat) ->
  trend_constr n D' M g X <-> trend_constrR n D g X.
Proof.
  intros Htc. unfold trend_constr, trend_constrR.
  assert (PG : forall lo hi jlo, (hi <= n)%nat -> preproc lo hi jlo (fun v => (v > 0)%Z) D' X <-> preprocR lo hi jlo (fun v => v > 0) D X)
    by (intros; apply preproc_bridge; [assumption|apply gt0_scaled]).
  assert (PL : forall lo hi jlo, (hi <= n)%nat -> preproc lo hi jlo (fun v => (v < 0)%Z) D' X <-> preprocR lo hi jlo (fun v => v < 0) D X)
    by (intros; apply preproc_bridge; [assumption|apply lt0_scaled]).
  destruct (g_trend g) as [| | | | | | |tc|tc] eqn:Et.
  - reflexivity.
  - unfold ascending, ascendingR. rewrite (PG 0%nat n 0%nat) by lia. split; intros (A & B); (split; [|exact B]); intros i z Hi Hz; apply asc_bridge; try lia; now apply A.
  - unfold descending, descendingR. rewrite (PL 0%nat n 0%nat) by lia. split; intros (A & B); (split; [|exact B]); intros i z Hi Hz; apply desc_bridge; try lia; now apply A.
  - unfold concave, concaveR. split; intros A i j k Hi Hj Hk; specialize (A i j k Hi Hj Hk); revert A; apply ge_scaled; izr; rewrite ?row_rate_scaled by lia; rewrite ?opp_IZR, ?row_rate_scaled by lia; izr; ring.
  - unfold convex, convexR. split; intros A i j k Hi Hj Hk; specialize (A i j k Hi Hj Hk); revert A; apply ge_scaled; izr; rewrite ?row_rate_scaled by lia; izr; ring.
  - assert (B : forall y, peak n D' M y X <-> peakR n D y X).
    { intros y. unfold peak, peakR. split; intros A i z Hi Hz; destruct (A i z Hi Hz) as (A1 & A2); split; [revert A1|revert A2|revert A1|revert A2];
      apply ge0_scaled; izr; rewrite !tele_scaled, !HD by lia; ring. }
    split; intros (y & t & H1 & H2); exists y, t; (split; [exact H1|now apply B]).
  - assert (B : forall y, valley n D' M y X <-> valleyR n D y X).
    { intros y. unfold valley, valleyR. split; intros A i z Hi Hz; destruct (A i z Hi Hz) as (A1 & A2); split; [revert A1|revert A2|revert A1|revert A2];
      apply ge0_scaled; izr; rewrite !tele_scaled, !HD by lia; ring. }
    split; intros (y & t & H1 & H2); exists y, t; (split; [exact H1|now apply B]).
  - specialize (Htc tc (or_introl eq_refl)). unfold peak_heuristic, peak_heuristicR. rewrite (PG 0%nat tc 0%nat), (PL tc n tc) by lia.
    split; intros (A & B & C & E); (split; [|split; [exact B|split; [|exact E]]]); intros i z Hi Hz; (apply asc_bridge || apply desc_bridge); try lia; (now apply A) || (now apply C).
  - specialize (Htc tc (or_intror eq_refl)). unfold valley_heuristic, valley_heuristicR. rewrite (PL 0%nat tc 0%nat), (PG tc n tc) by lia.
    split; intros (A & B & C & E); (split; [|split; [exact B|split; [|exact E]]]); intros i z Hi Hz; (apply asc_bridge || apply desc_bridge); try lia; (now apply A) || (now apply C).
Qed.
End Bridge.
