(** Lemmas for the multiclass mixed-integer model (C67). *)
From Coq Require Import List ZArith Bool Arith Reals Lra Lia QArith.
From Verif Require Import Model.Arr Model.Core Model.Metrics Model.CP Model.MIP Model.Multi Model.MultiMIP Spec.CoreSpec Spec.CPSpec Spec.CPFitSpec Spec.MIPSpec
  Spec.MultiSpec Spec.MultiMIPSpec Proofs.MetricsP Proofs.CPP Proofs.CPC Proofs.CPTable Proofs.CPFinal Proofs.MIPP Proofs.MIPQ Proofs.MIPR
  Proofs.MultiP Proofs.MultiFinal.
Import ListNotations.
Open Scope R_scope.

Section Class.
Variables (ne ev : list Z) (X : mat) (gs : list group).
Notation n := (length ne).
Hypothesis Hl : length ne = length ev.
Hypothesis Pn : pos_list ne.
Hypothesis Pe : pos_list ev.
Hypothesis Hn : (0 < n)%nat.
Hypothesis Hp : partition n gs.
Hypothesis Hr : describes n gs X.
Notation D := (rate_matR ne ev).
Lemma rate_unit i s : (i < n)%nat -> (s <= i)%nat -> 0 <= D i s <= 1.
Proof.
  intros Hi Hs. unfold rate_matR. assert (T := total_pos ne ev Hl Pn Pe i s Hi Hs).
  assert (0 <= cum_mat ne i s /\ 0 <= cum_mat ev i s)%Z as [A B].
  { assert (P : forall l, pos_list l -> (i < length l)%nat -> (0 <= cum_mat l i s)%Z).
    { intros l Hpl Hil. rewrite cum_mat_gsum by assumption. unfold gsum, slice. cbn [fst snd]. apply zsum_nonneg. intros a Ha. apply Z.lt_le_incl, Hpl.
      assert (Hs' : In a (skipn s l)) by (rewrite <- (firstn_skipn (S i - s) (skipn s l)); apply in_or_app; now left).
      rewrite <- (firstn_skipn s l). apply in_or_app. now right. }
    split; apply P; auto; lia. }
  apply IZR_lt in T. apply IZR_le in A, B. rewrite plus_IZR in *. split.
  - apply Rmult_le_pos; [lra|]. apply Rlt_le, Rinv_0_lt_compat. lra.
  - apply (Rmult_le_reg_r (IZR (cum_mat ne i s) + IZR (cum_mat ev i s))); [lra|]. unfold Rdiv. rewrite Rmult_assoc, Rinv_l by lra. lra.
Qed.
Lemma row_unit i : (i < n)%nat -> (X i i = 0%Z \/ X i i = 1%Z) /\ 0 <= teleR D X i + D i i * IZR (X i i) <= 1.
Proof.
  intros Hi. destruct (Hr i i Hi (le_n i)) as [H01 H1]. split; [exact H01|]. destruct H01 as [E|E].
  - rewrite E. rewrite (teleR_other n gs X Hr D i Hi); [lra|]. intros s Hs. assert (X i i = 1%Z); [|lia]. apply H1. exists s. split; [exact Hs|].
    pose proof (chain_in _ _ _ _ _ Hp Hs). lia.
  - destruct (proj1 H1 E) as (s & Hs & Hle). rewrite (teleR_end n gs X Hp Hr D s i Hs), E. pose proof (rate_unit i s Hi Hle). lra.
Qed.
Lemma switch (N k a b : R) : (k = 0 \/ 1 <= k) -> 1 <= N -> 0 <= a -> b <= 1 -> N * k + a - b >= 0 <-> k + a - b >= 0.
Proof.
  intros [->|Hk] HN Ha Hb; [split; intros; lra|]. assert (k <= N * k). { rewrite <- (Rmult_1_l k) at 1. apply Rmult_le_compat_r; lra. } split; intros; lra.
Qed.
Lemma N1 : 1 <= INR n. Proof. change 1 with (INR 1). apply le_INR. lia. Qed.
Section Y.
Variables (y : nat -> Z).
Hypothesis Hy : forall i, (i < n)%nat -> (y i = 0 \/ y i = 1)%Z.
Lemma two_y i z : (i < n)%nat -> (z < n)%nat -> (IZR (y i) + IZR (y z) = 0 \/ 1 <= IZR (y i) + IZR (y z)) /\ (2 - IZR (y i) - IZR (y z) = 0 \/ 1 <= 2 - IZR (y i) - IZR (y z)).
Proof. intros Hi Hz. destruct (Hy i Hi) as [-> | ->], (Hy z Hz) as [-> | ->]; split; (left; lra) || (right; lra). Qed.
Lemma switch_rows i z k : (i < n)%nat -> (z < n)%nat -> (k = 0 \/ 1 <= k) ->
  INR n * k + 1 + (D z z - 1) * IZR (X z z) + teleR D X z - teleR D X i - D i i * IZR (X i i) >= 0 <->
  k + 1 + (D z z - 1) * IZR (X z z) + teleR D X z - teleR D X i - D i i * IZR (X i i) >= 0.
Proof.
  intros Hi Hz Hk. destruct (row_unit i Hi) as [Xi Ri]. destruct (row_unit z Hz) as [Xz Rz]. pose proof N1 as HN.
  assert (Uz : 0 <= 1 - IZR (X z z)) by (destruct Xz as [-> | ->]; lra).
  pose proof (switch (INR n) k (1 - IZR (X z z) + (teleR D X z + D z z * IZR (X z z))) (teleR D X i + D i i * IZR (X i i)) Hk HN ltac:(lra) ltac:(lra)) as S1.
  split; intros H; [assert (Q := proj1 S1 ltac:(lra))|assert (Q := proj2 S1 ltac:(lra))]; lra.
Qed.
Lemma peak_bigM : peakN n D y X <-> peakR n D y X.
Proof.
  split; intros H i z Hi Hz; destruct (H i z Hi Hz) as [H1 H2]; destruct (two_y i z ltac:(lia) ltac:(lia)) as [Y1 Y2];
    split; [apply (switch_rows i z _ ltac:(lia) ltac:(lia) Y1)|apply (switch_rows z i _ ltac:(lia) ltac:(lia) Y2)|
            apply (switch_rows i z _ ltac:(lia) ltac:(lia) Y1)|apply (switch_rows z i _ ltac:(lia) ltac:(lia) Y2)]; assumption.
Qed.
Lemma valley_bigM : valleyN n D y X <-> valleyR n D y X.
Proof.
  split; intros H i z Hi Hz; destruct (H i z Hi Hz) as [H1 H2]; destruct (two_y i z ltac:(lia) ltac:(lia)) as [Y1 Y2];
    split; [apply (switch_rows z i _ ltac:(lia) ltac:(lia) Y1)|apply (switch_rows i z _ ltac:(lia) ltac:(lia) Y2)|
            apply (switch_rows z i _ ltac:(lia) ltac:(lia) Y1)|apply (switch_rows i z _ ltac:(lia) ltac:(lia) Y2)]; assumption.
Qed.
End Y.
(** one class as a binary model *)
Definition class_cfgR (g : mmip_cfg) (t : trend) : cp_cfg :=
  {| g_trend := match t with TAscending | TDescending | TPeak | TValley => t | _ => TNone end;
     g_min_bins := mm_min_bins g; g_max_bins := mm_max_bins g;
     g_min_size := None; g_max_size := None; g_min_ne := None; g_max_ne := None; g_min_e := None; g_max_e := None;
     g_md0 := match t with TAscending | TDescending => is0R (mm_md g) | _ => false end; g_fixed := mm_fixed g;
     g_pviol := pviol_of (mm_pol g) (mm_test g) ne ev; g_dviol := dviol_ofR (mm_md g) ne ev |}.
Lemma class_trendR g t : mm_trend n D (is0R (mm_md g)) t X <-> trend_constrR n D (class_cfgR g t) X.
Proof.
  unfold mm_trend, trend_constrR, class_cfgR. cbn [g_trend g_md0]. destruct t; try tauto.
  - split; intros (y & tc & Hc & H); exists y, tc; (split; [exact Hc|]); apply (peak_bigM y (proj1 (proj2 Hc))); exact H.
  - split; intros (y & tc & Hc & H); exists y, tc; (split; [exact Hc|]); apply (valley_bigM y (proj1 (proj2 Hc))); exact H.
Qed.
Lemma class_feasibleR g t : min_max_bins n (mm_min_bins g) (mm_max_bins g) X -> fixed_splits n (mm_fixed g) X ->
  class_constrR n g X t (ne, ev) <-> feasibleR n D (at0 ne) (at0 ev) (class_cfgR g t) X.
Proof.
  intros HB HX. destruct (represents_structural _ _ _ Hp Hr) as (S1 & S2 & S3). unfold class_constrR. cbn [fst snd]. rewrite class_trendR. split.
  - intros (A & B & C). unfold feasibleR. repeat (split; [assumption|]). split; [exact I|]. split; [intros i _; split; intros ? [=]|].
    split; [intros i _; split; intros ? [=]|]. split; [exact A|]. split; [exact B|]. split; [exact C|]. exact HX.
  - intros (_ & _ & _ & _ & _ & _ & _ & A & B & C & _). auto.
Qed.
Lemma class_sound g t : min_max_bins n (mm_min_bins g) (mm_max_bins g) X -> fixed_splits n (mm_fixed g) X -> class_constrR n g X t (ne, ev) ->
  class_trend_holds t (rows_of ne ev gs) /\ pvalue_ok (mm_pol g) (mm_test g) (rows_of ne ev gs) /\ neighbours (apartR (mm_md g)) (rows_of ne ev gs).
Proof.
  intros HB HX HC. apply (class_feasibleR g t HB HX) in HC.
  assert (Htc : tc_ok n (class_cfgR g t)) by (intros tc [E|E]; cbn in E; destruct t; discriminate).
  destruct (sound_request ne ev (class_cfgR g t) X Hl Pn Pe Htc gs Hn Hp Hr (mm_pol g) (mm_test g) (mm_md g) HC eq_refl eq_refl) as [R1 _ _ _ _ R6 R7 _].
  split; [|auto]. destruct t; try exact I; exact R1.
Qed.
Lemma class_complete g t : ((t = TAscending \/ t = TDescending) -> mm_md g <> 0) ->
  within (mm_min_bins g) (mm_max_bins g) (Z.of_nat (length gs)) ->
  (forall f i, mm_fixed g = Some f -> (i < n - 1)%nat -> nth_error f i = Some true -> exists s, In (s, i) gs) ->
  class_trend_holds t (rows_of ne ev gs) -> pvalue_ok (mm_pol g) (mm_test g) (rows_of ne ev gs) -> neighbours (apartR (mm_md g)) (rows_of ne ev gs) ->
  class_constrR n g X t (ne, ev).
Proof.
  intros Hm Hb Hf HT HPv HN.
  assert (Htc : tc_ok n (class_cfgR g t)) by (intros tc [E|E]; cbn in E; destruct t; discriminate).
  assert (F : feasibleR n D (at0 ne) (at0 ev) (class_cfgR g t) X).
  { apply (complete_request ne ev (class_cfgR g t) X Hl Pn Pe Htc gs Hn Hp Hr (mm_pol g) (mm_test g) (mm_md g)); try reflexivity.
    - cbn. unfold is0R. destruct t; try reflexivity; destruct (Req_EM_T (mm_md g) 0) as [E|E]; try reflexivity; exfalso; apply Hm; auto.
    - cbn. destruct t; exact I.
    - constructor; cbn; try assumption; try (apply Forall_forall; intros; split; intros ? [=]).
      destruct t; try exact I; exact HT. }
  destruct F as (_ & _ & _ & _ & _ & _ & _ & A & B & C & _). split; [now apply class_trendR|]. split; [exact B|exact C].
Qed.
End Class.
