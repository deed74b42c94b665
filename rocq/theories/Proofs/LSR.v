(** Soundness and completeness of the constraints of ls.py. *)
From Coq Require Import List ZArith Bool Arith Lia QArith Lqa.
From Verif Require Import Model.Arr Model.CP Model.LS Spec.CPSpec Spec.CPFitSpec Spec.LSSpec Proofs.CPP Proofs.CPC Proofs.CPTable Proofs.CPFinal Proofs.LSP Proofs.LSQ.
Import ListNotations.
Open Scope Z_scope.

Section Whole.
Variables (ne ev : list Z) (M k : Z) (g : cp_cfg) (v : ls_vars) (gs : list group).
Let n := length ne.
Hypothesis Hn : (0 < n)%nat.
Hypothesis Hl : length ne = length ev.
Hypothesis HM : 0 < M.
Hypothesis Hk : 0 <= k <= M.
Hypothesis Pn : pos_list ne.
Hypothesis Pe : pos_list ev.
Hypothesis HB : ls_basic n v.
Hypothesis Hp : partition n gs.
Hypothesis HI : forall s e, In (s, e) gs <-> (e < n)%nat /\ l_x v e = 1 /\ l_z v e = Z.of_nat e - Z.of_nat s.
Let X := mat_of gs.
Let Hr : describes n gs X := mat_of_represents n gs.
Let D := rate_mat M ne ev.
Lemma HD : bounded n D M.
Proof. apply rate_mat_bounded; auto. lia. Qed.
Lemma asc_weaken i j : (i < n)%nat -> (j < n)%nat -> ls_asc D M k v i j -> asc_constr D X M i j.
Proof.
  intros Hi Hj H. apply (proj2 (asc_row n X Hn D M i j)). apply (le_guard_iff n gs X Hn Hp Hr D M HD i j Hi Hj). intros s s' I I'.
  apply (ls_asc_iff ne ev M k v gs Hn Hl HB Hp HI D HD Hk i j Hi Hj) with (s := s) (s' := s') in H; try assumption. lia.
Qed.
Lemma desc_weaken i j : (i < n)%nat -> (j < n)%nat -> ls_desc D M k v i j -> desc_constr D X M i j.
Proof.
  intros Hi Hj H. apply (proj2 (desc_row n X Hn D M i j)). apply (proj1 (ls_desc_asc ne ev M k v gs Hn Hl HI D i j)) in H. apply asc_weaken in H; [|assumption|assumption]. exact (proj1 (asc_row n X Hn D M j i) H).
Qed.
Lemma sound_link : ls_feasible M k ne ev g v -> (forall tc, g_trend g = TPeakHeuristic tc \/ g_trend g = TValleyHeuristic tc -> (tc <= n)%nat) ->
  feasible n D M (at0 ne) (at0 ev) (strip g) X.
Proof.
  intros (_ & T & B & S & N & E & F) Htc. fold n D in T, B, S, N, E, F. pose proof (represents_structural n gs X Hp Hr) as (S1 & S2 & S3).
  do 3 (split; [assumption|]). split; [now apply (link_bins ne ev v gs Hn Hl HB Hp HI)|]. split; [now apply (link_size ne ev v gs Hn Hl HB Hp HI)|].
  split; [apply (link_count ne ev v gs Hn Hl HB Hp HI _ _ ne eq_refl); exact N|]. split; [apply (link_count ne ev v gs Hn Hl HB Hp HI _ _ ev (eq_sym Hl)); exact E|].
  split; [|split; [intros x []|split; [intros x []|now apply (link_fixed ne ev v gs Hn Hl HB Hp HI)]]].
  unfold ls_trend in T. unfold trend_constr, strip. cbn [g_trend g_md0]. destruct (g_trend g) eqn:Eg; auto.
  - split; [|discriminate]. intros i j Hi Hj. apply asc_weaken; try lia. now apply T.
  - split; [|discriminate]. intros i j Hi Hj. apply desc_weaken; try lia. now apply T.
  - now apply (link_concave ne ev M v gs Hn Hl HB Hp HI).
  - now apply (link_convex ne ev M v gs Hn Hl HB Hp HI).
  - destruct T as (y & t & C & T). exists y, t. split; [exact C|]. now apply (link_peak ne ev M v gs Hn Hl HB Hp HI).
  - destruct T as (y & t & C & T). exists y, t. split; [exact C|]. now apply (link_valley ne ev M v gs Hn Hl HB Hp HI).
  - specialize (Htc tc ltac:(auto)). destruct T as (T1 & _ & T2 & _). split; [|split; [discriminate|split; [|discriminate]]].
    + intros i j Hi Hj. apply asc_weaken; try lia. now apply T1.
    + intros i j Hi Hj. apply desc_weaken; try lia. now apply T2.
  - specialize (Htc tc ltac:(auto)). destruct T as (T1 & _ & T2 & _). split; [|split; [discriminate|split; [|discriminate]]].
    + intros i j Hi Hj. apply desc_weaken; try lia. now apply T1.
    + intros i j Hi Hj. apply asc_weaken; try lia. now apply T2.
Qed.
Let F := fun h : group => (gsum ne h, gsum ev h).
Lemma gap_above a b : In a gs -> In b gs -> D (snd a) (fst a) + k <= D (snd b) (fst b) -> above_res M k (F a) (F b).
Proof.
  intros Ia Ib H. fold (at_group D a) (at_group D b) in H. unfold D in H. rewrite !(F_D ne ev gs M Hl Hp) in H by assumption.
  apply floor_gap_rate; [exact HM|now apply (F_rec ne ev gs Hl Hp Pn Pe)|now apply (F_rec ne ev gs Hl Hp Pn Pe)|unfold F; lia].
Qed.
Lemma above_gap a b : In a gs -> In b gs -> above M k (F a) (F b) -> D (snd a) (fst a) + k <= D (snd b) (fst b).
Proof.
  intros Ia Ib H. fold (at_group D a) (at_group D b). unfold D. rewrite !(F_D ne ev gs M Hl Hp) by assumption.
  apply rate_gap_floor in H; [unfold F in H; lia|exact HM|now apply (F_rec ne ev gs Hl Hp Pn Pe)|now apply (F_rec ne ev gs Hl Hp Pn Pe)].
Qed.
Lemma all_pairs_map {A B} (f : A -> B) (P : B -> B -> Prop) l : all_pairs (fun a b => P (f a) (f b)) l -> all_pairs P (map f l).
Proof. induction 1 as [|a l H _ IH]; cbn; constructor; auto. rewrite Forall_map. exact H. Qed.
Lemma all_pairs_unmap {A B} (f : A -> B) (P : B -> B -> Prop) l : all_pairs P (map f l) -> all_pairs (fun a b => P (f a) (f b)) l.
Proof. induction l as [|a l IH]; cbn; intros H; [constructor|]. inversion H as [|? ? H1 H2]; subst. constructor; [now rewrite Forall_map in H1|exact (IH H2)]. Qed.
Lemma gap_pairs (P : group -> group -> Prop) : (forall s1 e1 s2 e2, In (s1, e1) gs -> In (s2, e2) gs -> (e1 < e2)%nat -> P (s1, e1) (s2, e2)) -> all_pairs P gs.
Proof. intros H. now apply (chain_pairs _ _ _ P Hp). Qed.
Lemma gap_up_down c (le : Z * Z -> Z * Z -> Prop) :
  (forall s1 e1 s2 e2, In (s1, e1) gs -> In (s2, e2) gs -> (e1 < e2)%nat -> (e2 < c)%nat -> le (F (s1, e1)) (F (s2, e2))) ->
  (forall s1 e1 s2 e2, In (s1, e1) gs -> In (s2, e2) gs -> (c <= e1)%nat -> (e1 < e2)%nat -> le (F (s2, e2)) (F (s1, e1))) ->
  up_down le (rows_of ne ev gs).
Proof.
  intros Ha Hd. destruct (chain_split_at _ _ _ c Hp) as (g1 & g2 & E & Hlt & Hge). exists (map F g1), (map F g2).
  split; [unfold rows_of; rewrite E; apply map_app|].
  assert (Hc : chain 0 n (g1 ++ g2)) by (rewrite <- E; exact Hp). destruct (chain_app _ _ _ _ Hc) as (m & C1 & C2).
  split; apply all_pairs_map.
  - apply (chain_pairs _ _ _ _ C1). intros s1 e1 s2 e2 I1 I2 H. apply Ha; auto; try (rewrite E; apply in_or_app; auto). eauto.
  - apply (chain_pairs _ _ _ _ C2). intros s1 e1 s2 e2 I1 I2 H. apply Hd; auto; try (rewrite E; apply in_or_app; auto). eauto.
Qed.
Lemma sound_trend : ls_feasible M k ne ev g v -> (forall tc, g_trend g = TPeakHeuristic tc \/ g_trend g = TValleyHeuristic tc -> (tc <= n)%nat) ->
  ls_trend_res M k (g_trend g) (rows_of ne ev gs).
Proof.
  intros HF Htc. pose proof (sound_link HF Htc) as HC. destruct HF as (_ & T & _). fold n D in T. unfold ls_trend in T. unfold ls_trend_res. destruct (g_trend g) eqn:Eg; auto.
  - apply all_pairs_map, gap_pairs. intros s1 e1 s2 e2 I1 I2 H. apply gap_above; auto. cbn [fst snd]. pose proof (chain_in _ _ _ _ _ Hp I2).
    apply (asc_gap ne ev M k v gs Hn Hl HB Hp HI D HD Hk 0 n (le_n n)); auto; try lia. intros i j _ Hj Hi. apply T; lia.
  - apply all_pairs_map, gap_pairs. intros s1 e1 s2 e2 I1 I2 H. apply gap_above; auto. cbn [fst snd]. pose proof (chain_in _ _ _ _ _ Hp I2).
    apply (desc_gap ne ev M k v gs Hn Hl HB Hp HI D HD Hk 0 n (le_n n)); auto; try lia. intros i j _ Hj Hi. apply T; lia.
  - apply (sound_concave ne ev M (strip g) X gs Hn Hl Hp Hr HC HM Pn Pe). exact Eg.
  - apply (sound_convex ne ev M (strip g) X gs Hn Hl Hp Hr HC HM Pn Pe). exact Eg.
  - apply (sound_peak ne ev M (strip g) X gs Hn Hl Hp Hr HC HM Pn Pe). left. exact Eg.
  - apply (sound_valley ne ev M (strip g) X gs Hn Hl Hp Hr HC HM Pn Pe). left. exact Eg.
  - specialize (Htc tc ltac:(auto)). destruct T as (T1 & _ & T2 & _). apply (gap_up_down tc); intros s1 e1 s2 e2 I1 I2 A B; apply gap_above; auto; cbn [fst snd].
    + apply (asc_gap ne ev M k v gs Hn Hl HB Hp HI D HD Hk 0 tc Htc); auto; try lia. intros i j _ Hj Hi. apply T1; lia.
    + pose proof (chain_in _ _ _ _ _ Hp I2). apply (desc_gap ne ev M k v gs Hn Hl HB Hp HI D HD Hk tc n (le_n n)); auto; try lia. intros i j Hj Hj' Hi. apply T2; lia.
  - specialize (Htc tc ltac:(auto)). destruct T as (T1 & _ & T2 & _). apply (gap_up_down tc); intros s1 e1 s2 e2 I1 I2 A B; apply gap_above; auto; cbn [fst snd].
    + apply (desc_gap ne ev M k v gs Hn Hl HB Hp HI D HD Hk 0 tc Htc); auto; try lia. intros i j _ Hj Hi. apply T1; lia.
    + pose proof (chain_in _ _ _ _ _ Hp I2). apply (asc_gap ne ev M k v gs Hn Hl HB Hp HI D HD Hk tc n (le_n n)); auto; try lia. intros i j Hj Hj' Hi. apply T2; lia.
Qed.
(** a partition meeting the request satisfies the constraints, apart from the cuts *)
Lemma complete_link : ls_request M k ne ev gs g -> (g_md0 g = true -> g_trend g <> TAscending /\ g_trend g <> TDescending) -> ls_feasible M k ne ev g v.
Proof.
  intros R Hmd. destruct R as [R1 R2 R3 R4 R5 R6].
  assert (FC : trend_met (g_trend g) (rows_of ne ev gs) -> trend_constr n D M (strip g) X).
  { intros Ht. apply (trend_complete ne ev gs M (strip g) X Hn (Z.lt_le_incl _ _ HM) Hl Hp Hr Pn Pe eq_refl). exact Ht. }
  split; [exact HB|]. fold n D. split.
  - unfold ls_trend, ls_trend_met, trend_constr, strip in *. cbn [g_trend g_md0] in FC. destruct (g_trend g) eqn:Eg; auto; try contradiction.
    + split; [|intros H; now destruct (Hmd H)]. intros i j Hi Hj. apply (asc_gap ne ev M k v gs Hn Hl HB Hp HI D HD Hk 0 n (le_n n)); try lia.
      intros s1 e1 s2 e2 I1 I2 _ H12 _. apply (above_gap (s1, e1) (s2, e2) I1 I2). apply all_pairs_unmap in R1. now apply (proj1 (chain_pairs _ _ _ _ Hp) R1 s1 e1 s2 e2).
    + split; [|intros H; now destruct (Hmd H)]. intros i j Hi Hj. apply (desc_gap ne ev M k v gs Hn Hl HB Hp HI D HD Hk 0 n (le_n n)); try lia.
      intros s1 e1 s2 e2 I1 I2 _ H12 _. apply (above_gap (s2, e2) (s1, e1) I2 I1). apply all_pairs_unmap in R1. now apply (proj1 (chain_pairs _ _ _ _ Hp) R1 s1 e1 s2 e2).
    + destruct (FC R1) as (y & t & C & P). exists y, t. split; [exact C|]. now apply (link_peak ne ev M v gs Hn Hl HB Hp HI).
    + destruct (FC R1) as (y & t & C & P). exists y, t. split; [exact C|]. now apply (link_valley ne ev M v gs Hn Hl HB Hp HI).
  - split; [apply (link_bins ne ev v gs Hn Hl HB Hp HI), (min_max_bins_iff n gs X Hn Hp Hr); exact R2|].
    split; [apply (link_size ne ev v gs Hn Hl HB Hp HI), (min_max_bin_size_iff n gs X Hn Hp Hr), (size_F ne ev gs _ records); [intros h Ih; now apply (cnt_rec ne ev gs Hl Hp)|exact R3]|].
    split; [apply (link_count ne ev v gs Hn Hl HB Hp HI _ _ ne eq_refl), (min_max_count_iff n gs X Hn Hp Hr), (size_F ne ev gs _ fst); [intros h Ih; now apply (cnt_ne ne ev gs Hl Hp)|exact R4]|].
    split; [apply (link_count ne ev v gs Hn Hl HB Hp HI _ _ ev (eq_sym Hl)), (min_max_count_iff n gs X Hn Hp Hr), (size_F ne ev gs _ snd); [intros h Ih; now apply (cnt_ev ne ev gs Hl Hp)|exact R5]|].
    apply (link_fixed ne ev v gs Hn Hl HB Hp HI), (fixed_iff n gs X Hn Hp Hr). exact R6.
Qed.
End Whole.
