(** analysis() of the 2D tables. *)
From Coq Require Import List ZArith QArith Bool Arith Lia String Reals Qreals Sorting Lra.
From Verif Require Import Model.Arr Model.Core Model.Metrics Model.TwoD Model.TwoDCont Model.TwoDCart Model.TwoDPairs Model.MultiTable Model.TwoDTable
  Spec.CoreSpec Spec.MetricsSpec Spec.MultiTableSpec Spec.TwoDSpec Spec.TwoDContSpec Spec.TwoDCartSpec Spec.TwoDPairsSpec Spec.TwoDTableSpec
  Proofs.ArrP Proofs.CoreP Proofs.MetricsP Proofs.MetricsQ Proofs.MetricsFinal Proofs.MultiTableP Proofs.MultiTableQ Proofs.MultiTableR
  Proofs.TwoDP Proofs.TwoDQ Proofs.TwoDR Proofs.TwoDS Proofs.TwoDV Proofs.TwoDC Proofs.TwoDCR
  Proofs.TwoDPairsP Proofs.TwoDPairsQ Proofs.TwoDTableP Proofs.TwoDTableQ Proofs.TwoDTableR Proofs.TwoDTableS.
Import ListNotations.
Open Scope nat_scope.

Lemma cramer_defined f nb : List.length (t_nev f) = nb + 2 -> List.length (t_ev f) = nb + 2 -> (forall b, b < nb -> (0 < nth b (t_ev f) 0 /\ 0 < nth b (t_nev f) 0)%Z) ->
  exists v, an_cramer f = Ok v.
Proof.
  intros Ln Le Hpos. assert (Hm : an_metric f = nb) by (unfold an_metric; lia). unfold an_cramer. rewrite Hm. destruct (Nat.leb_spec 2 nb) as [H2|H2]; [|exists 0%R; reflexivity].
  assert (L1 : List.length (firstn nb (t_nev f)) = nb) by (rewrite firstn_length; lia). assert (L2 : List.length (firstn nb (t_ev f)) = nb) by (rewrite firstn_length; lia).
  assert (P1 : forall v, In v (firstn nb (t_nev f)) -> (0 < v)%Z).
  { intros v Hv. apply (In_nth _ _ 0%Z) in Hv as (k & Hk & <-). rewrite L1 in Hk. rewrite firstn_nth by exact Hk. apply (Hpos k Hk). }
  assert (P2 : forall v, In v (firstn nb (t_ev f)) -> (0 < v)%Z).
  { intros v Hv. apply (In_nth _ _ 0%Z) in Hv as (k & Hk & <-). rewrite L2 in Hk. rewrite firstn_nth by exact Hk. apply (Hpos k Hk). }
  assert (Hok : table_ok nb [firstn nb (t_nev f); firstn nb (t_ev f)]).
  { split; [discriminate|]. intros col [<-|[<-|[]]].
    - split; [exact L1|]. split; [intros v Hv; apply P1 in Hv; lia|]. apply zsum_pos; [intros E; rewrite E in L1; cbn in L1; lia|exact P1].
    - split; [exact L2|]. split; [intros v Hv; apply P2 in Hv; lia|]. apply zsum_pos; [intros E; rewrite E in L2; cbn in L2; lia|exact P2]. }
  assert (Hr : forall k, k < nb -> (0 < row_sum [firstn nb (t_nev f); firstn nb (t_ev f)] k)%R).
  { intros k Hk. unfold row_sum, at_row. cbn [map zsum]. apply (IZR_lt 0). pose proof (P1 _ (nth_In _ 0%Z (eq_ind_r (fun q => k < q) Hk L1))). pose proof (P2 _ (nth_In _ 0%Z (eq_ind_r (fun q => k < q) Hk L2))). lia. }
  destruct (cramer_binary nb _ _ Hok Hr ltac:(lia)) as (v & -> & _). exists v. reflexivity.
Qed.
Lemma all_some_spec {A} (l : list (option A)) : match all_some l with Some r => l = map Some r | None => In None l end.
Proof.
  induction l as [|[a|] l IH]; cbn [all_some]; [reflexivity| |now left]. destruct (all_some l) as [r|]; cbn [option_map map]; [now rewrite IH|now right].
Qed.

Section Cont.
Variables (ax ay : axis) (cx cy : option (list xval)) (sx sy : list Z) (c : cfg2) (data : list sample3) (f : fitted3).
Hypothesis HB : continuous_fit ax ay cx cy sx sy c data f.
Let nb := List.length (t_bx (k_fit f)).
Lemma cont_counts : List.length (k_records f) = nb + 2 /\ List.length (k_sums f) = nb + 2 /\ 0 < nb /\ counts_ok (k_records f) /\ (0 < zsum (k_records f))%Z /\
  (forall b, b < nb -> (0 < nth b (k_records f) 0)%Z).
Proof.
  destruct (continuous_unpack _ _ _ _ _ _ _ _ _ HB) as (srs & fe & fne & P0 & HF & HT & HP0 & HP & Hpos).
  destruct (bins_length _ _ _ _ _ _ _ _ HF) as [L1 L2]. fold nb in L1, Hpos.
  assert (LE : List.length (k_sums f) = nb + 2) by (unfold k_sums; rewrite (fo_e _ _ _ _ _ _ _ _ HF), app_length, map_length, L1; reflexivity).
  assert (LN : List.length (k_records f) = nb + 2) by (unfold k_records; rewrite (fo_ne _ _ _ _ _ _ _ _ HF), app_length, map_length, L1; reflexivity).
  assert (N0 : 0 < nb). { rewrite L1. destruct (proj2 HT 0 0 ltac:(lia) ltac:(lia)) as (b & r & Hb & _). assert (b < List.length srs) by (apply nth_error_Some; congruence). lia. }
  assert (CN : counts_ok (k_records f)).
  { intros z Hz. apply (In_nth _ _ 0%Z) in Hz as (b & Hb & Ez). destruct (Nat.lt_ge_cases b nb) as [H|H]; [pose proof (Hpos b H); lia|].
    rewrite <- Ez. unfold k_records. rewrite (fo_ne _ _ _ _ _ _ _ _ HF), app_nth2 by (rewrite map_length; lia). rewrite map_length.
    destruct (b - List.length srs) as [|[|k]] eqn:Ek; cbn [nth]; [| |destruct k; cbn; lia]; unfold info3; cbn [fst]; lia. }
  split; [exact LN|]. split; [exact LE|]. split; [exact N0|]. split; [exact CN|]. split; [|exact Hpos].
  pose proof (zsum_pos_In _ _ CN (nth_In (k_records f) 0%Z (n := 0) ltac:(lia))). specialize (Hpos 0 N0). lia.
Qed.
Lemma cont_shares_ok : rsum (cont_shares f) = 1%R /\ (forall s, In s (cont_shares f) -> (0 <= s <= 1)%R) /\ List.length (cont_shares f) = nb + 2.
Proof.
  destruct cont_counts as (LN & _ & _ & CN & PN & _). unfold cont_shares. split; [|split].
  - apply share_sum; [reflexivity|]. apply not_eq_sym, Rlt_not_eq. now apply (IZR_lt 0).
  - intros s Hs. apply (share_bounds (k_records f) (IZR (zsum (k_records f)))); [exact CN|reflexivity|now apply (IZR_lt 0)|exact Hs].
  - now rewrite map_length.
Qed.
Lemma rsum_abs_nonneg l : (0 <= rsum (map (fun w => Rabs (Q2R w)) l))%R.
Proof. apply rsum_nonneg. intros x Hx. apply in_map_iff in Hx as (w & <- & _). apply Rabs_pos. Qed.
End Cont.
