(** From fit to table: what every fitted 2D table satisfies, whatever the strategy. *)
From Coq Require Import List ZArith QArith Bool Arith Lia Reals Sorting Lra.
From Verif Require Import Model.Arr Model.Core Model.Metrics Model.TwoD Model.TwoDCont Model.TwoDCart Model.TwoDPairs Model.TwoDTable
  Spec.CoreSpec Spec.MetricsSpec Spec.TwoDSpec Spec.TwoDContSpec Spec.TwoDCartSpec Spec.TwoDPairsSpec Spec.TwoDTableSpec
  Proofs.ArrP Proofs.CoreP Proofs.MetricsP Proofs.TwoDP Proofs.TwoDQ Proofs.TwoDR Proofs.TwoDS Proofs.TwoDT Proofs.TwoDU Proofs.TwoDV Proofs.TwoDG Proofs.TwoDC Proofs.TwoDCR
  Proofs.TwoDCartP Proofs.TwoDCartQ Proofs.TwoDCartR Proofs.TwoDPairsP Proofs.TwoDPairsQ Proofs.TwoDTableP Proofs.TwoDTableQ
  Props.TwoDProps Props.TwoDCartProps.
Import ListNotations.
Open Scope nat_scope.

Lemma binary_unpack ax ay cx cy sx sy c data f : binary_fit ax ay cx cy sx sy c data f ->
  exists srs fe fne P0,
    fit_of sx sy fe fne srs (target_info2 (filter (special2 cx cy) data)) (target_info2 (filter missing2 data)) f /\
    tiling (S (length sy)) (S (length sx)) srs /\ length P0 = S (length sy) * S (length sx) /\ t_P f = assign 0 (t_rows f) P0 /\
    forall b, b < length (t_bx f) -> (0 < nth b (t_ev f) 0 /\ 0 < nth b (t_nev f) 0)%Z.
Proof.
  intros (pre_x & pre_y & grow & g & solver & P0 & <- & <- & Hs & HP0 & [Hf|Hf]).
  - destruct (fit2_unpack ax ay cx cy pre_x pre_y g c solver P0 data f Hf Hs HP0) as (srs & HV & HF).
    eexists srs, _, _, (P0 _). split; [exact HF|]. split; [exact (proj1 HV)|]. split; [apply HP0|]. split.
    + unfold fit2 in Hf. destruct (solver _ _ _ _ _) as [sol|]; [|discriminate]. exact (finish2_P _ _ _ _ _ _ _ _ _ _ _ Hf).
    + intros b Hb. destruct (C46_limits ax ay cx cy pre_x pre_y g c solver P0 data f Hf Hs HP0) as (_ & _ & H). destruct (H b Hb) as (A & B & _). auto.
  - destruct (fit2_cart_unpack ax ay cx cy pre_x pre_y grow g c solver P0 data f Hf Hs HP0) as (srs & (HT & _) & _ & HF & _).
    eexists srs, _, _, (P0 _). split; [exact HF|]. split; [exact HT|]. split; [apply HP0|]. split.
    + unfold fit2_cart in Hf. destruct (grow _) as [|]; [discriminate|]. destruct (solver _ _ _ _ _) as [sol|]; [|discriminate]. exact (finish2_P _ _ _ _ _ _ _ _ _ _ _ Hf).
    + intros b Hb. destruct (C61_limits ax ay cx cy pre_x pre_y grow g c solver P0 data f Hf Hs HP0) as (_ & _ & H). destruct (H b Hb) as (A & B & _). auto.
Qed.
Lemma adm3_pos ax ay cx cy sx sy g srs fs sp mi (f : fitted2) data b :
  fit_of sx sy fs (matrix3 ax ay sx sy one3 (filter (clean3 cx cy) data)) srs sp mi f -> tiling (S (length sy)) (S (length sx)) srs ->
  (forall r, In r srs -> admissible_cont g (matrix3 ax ay sx sy one3 (filter (clean3 cx cy) data)) (cells (S (length sx)) r) = true) ->
  b < length (t_bx f) -> (0 < nth b (t_nev f) 0)%Z.
Proof.
  intros HF HT Hok Hb. destruct (bins_length _ _ _ _ _ _ _ _ HF) as [L1 L2]. rewrite L1 in Hb.
  destruct (nth_error srs b) as [r|] eqn:Er; [|apply nth_error_None in Er; lia]. specialize (Hok r (nth_error_In _ _ Er)). pose proof (proj1 HT r (nth_error_In _ _ Er)) as Hr.
  assert (En : nth b (t_nev f) 0%Z = cell_sum (matrix3 ax ay sx sy one3 (filter (clean3 cx cy) data)) (cells (S (length sx)) r)).
  { rewrite (fo_ne _ _ _ _ _ _ _ _ HF), app_nth1 by (now rewrite map_length). erewrite nth_error_nth; [reflexivity|]. rewrite nth_error_map, Er; reflexivity. }
  unfold admissible_cont in Hok. rewrite <- En in Hok. assert (0 <= nth b (t_nev f) 0)%Z by (rewrite En, cell_sum_rect3, zsum_one3 by exact Hr; lia). clear En.
  rewrite !andb_true_iff in Hok. destruct Hok as [[Hz _] _]. apply negb_true_iff, Z.eqb_neq in Hz. lia.
Qed.
Lemma continuous_unpack ax ay cx cy sx sy c data f : continuous_fit ax ay cx cy sx sy c data f ->
  exists srs fe fne P0,
    fit_of sx sy fe fne srs (info3 (filter (special3 cx cy) data)) (info3 (filter missing3 data)) (k_fit f) /\
    tiling (S (length sy)) (S (length sx)) srs /\ length P0 = S (length sy) * S (length sx) /\ t_P (k_fit f) = assign 0 (t_rows (k_fit f)) P0 /\
    forall b, b < length (t_bx (k_fit f)) -> (0 < nth b (k_records f) 0)%Z.
Proof.
  intros (pre_x & pre_y & grow & g & solver & P0 & <- & <- & Hs & HP0 & [Hf|Hf]).
  - destruct (fit3_unpack ax ay cx cy pre_x pre_y g c solver P0 data f Hf Hs HP0) as (srs & HV & HF & _).
    eexists srs, _, _, (P0 _). split; [exact HF|]. split; [exact (proj1 HV)|]. split; [apply HP0|]. split.
    + unfold fit3 in Hf. destruct (solver _ _ _ _ _) as [sol|]; [|discriminate]. unfold rbind in Hf. destruct (finish2 _ _ _ _ _ _ _ _ _ _) as [f2|] eqn:E; [|discriminate].
      injection Hf as <-. cbn [k_fit]. exact (finish2_P _ _ _ _ _ _ _ _ _ _ _ E).
    + intros b Hb. apply (adm3_pos ax ay cx cy _ _ g srs _ _ _ (k_fit f) data b HF (proj1 HV) (proj1 (proj2 HV)) Hb).
  - destruct (fit3_cart_unpack ax ay cx cy pre_x pre_y grow g c solver P0 data f Hf Hs HP0) as (srs & (HT & _) & Hc & HF & _).
    eexists srs, _, _, (P0 _). split; [exact HF|]. split; [exact HT|]. split; [apply HP0|]. split.
    + unfold fit3_cart in Hf. destruct (grow _) as [|]; [discriminate|]. destruct (solver _ _ _ _ _) as [sol|]; [|discriminate]. unfold rbind in Hf. destruct (finish2 _ _ _ _ _ _ _ _ _ _) as [f2|] eqn:E; [|discriminate].
      injection Hf as <-. cbn [k_fit]. exact (finish2_P _ _ _ _ _ _ _ _ _ _ _ E).
    + intros b Hb. apply (adm3_pos ax ay cx cy _ _ g srs _ _ _ (k_fit f) data b HF HT); [|exact Hb]. intros r Hr. apply (Hc r Hr).
Qed.

(** rows of the counts *)
Section Counts.
Variables (ax ay : axis) (cx cy : option (list xval)) (sx sy : list Z) (c : cfg2) (data : list sample2) (f : fitted2).
Hypothesis HB : binary_fit ax ay cx cy sx sy c data f.
Let nb := length (t_bx f).
Lemma bin_counts : length (t_ev f) = nb + 2 /\ length (t_nev f) = nb + 2 /\ 0 < nb /\ counts_ok (t_ev f) /\ counts_ok (t_nev f) /\
  (0 < zsum (t_ev f))%Z /\ (0 < zsum (t_nev f))%Z /\ (forall b, b < nb -> (0 < nth b (t_ev f) 0 /\ 0 < nth b (t_nev f) 0)%Z).
Proof.
  destruct (binary_unpack _ _ _ _ _ _ _ _ _ HB) as (srs & fe & fne & P0 & HF & HT & HP0 & HP & Hpos).
  destruct (bins_length _ _ _ _ _ _ _ _ HF) as [L1 L2]. fold nb in L1, Hpos.
  assert (LE : length (t_ev f) = nb + 2) by (rewrite (fo_e _ _ _ _ _ _ _ _ HF), app_length, map_length, L1; reflexivity).
  assert (LN : length (t_nev f) = nb + 2) by (rewrite (fo_ne _ _ _ _ _ _ _ _ HF), app_length, map_length, L1; reflexivity).
  assert (N0 : 0 < nb). { rewrite L1. destruct (proj2 HT 0 0 ltac:(lia) ltac:(lia)) as (b & r & Hb & _). assert (b < length srs) by (apply nth_error_Some; congruence). lia. }
  assert (C : forall l g (s : Z * Z -> Z), l = map g srs ++ [s (target_info2 (filter (special2 cx cy) data)); s (target_info2 (filter missing2 data))] -> (s = fst \/ s = snd) ->
     (forall b, b < nb -> (0 < nth b l 0)%Z) -> counts_ok l).
  { intros l g s El Hs Hp z Hz. apply (In_nth _ _ 0%Z) in Hz as (b & Hb & Ez). destruct (Nat.lt_ge_cases b nb) as [H|H]; [pose proof (Hp b H); lia|].
    rewrite <- Ez, El. rewrite app_nth2 by (rewrite map_length; lia). rewrite map_length.
    destruct (b - length srs) as [|[|k]] eqn:Ek; cbn [nth]; [| |destruct k; cbn; lia]; destruct Hs as [->| ->]; unfold target_info2; cbn [fst snd]; lia. }
  assert (CE : counts_ok (t_ev f)) by (refine (C _ _ snd (fo_e _ _ _ _ _ _ _ _ HF) (or_intror eq_refl) _); intros b Hb; apply (Hpos b Hb)).
  assert (CN : counts_ok (t_nev f)) by (refine (C _ _ fst (fo_ne _ _ _ _ _ _ _ _ HF) (or_introl eq_refl) _); intros b Hb; apply (Hpos b Hb)).
  assert (T : forall l, length l = nb + 2 -> counts_ok l -> (0 < nth 0 l 0)%Z -> (0 < zsum l)%Z).
  { intros l Ll Hl Hp. pose proof (zsum_pos_In l (nth 0 l 0%Z) Hl (nth_In l 0%Z (n := 0) ltac:(lia))). lia. }
  split; [exact LE|]. split; [exact LN|]. split; [exact N0|]. split; [exact CE|]. split; [exact CN|].
  split; [apply T; auto; apply (Hpos 0 N0)|]. split; [apply T; auto; apply (Hpos 0 N0)|exact Hpos].
Qed.
Lemma tot_pos : (0 < Metrics.t_ev (t_ev f))%R /\ (0 < Metrics.t_nev (t_nev f))%R.
Proof. destruct bin_counts as (_ & _ & _ & _ & _ & A & B & _). unfold Metrics.t_ev, Metrics.t_nev. split; now apply (IZR_lt 0). Qed.
End Counts.
