(** C75: from the label matrix to the displayed table. *)
From Coq Require Import List ZArith QArith Lia Bool Arith Permutation Sorting Relations.
From Verif Require Import Model.Arr Model.Core Model.TwoD Model.TwoDCont Model.TwoDCart Model.TwoDPairs Spec.CoreSpec Spec.TwoDSpec Spec.TwoDContSpec Spec.TwoDPairsSpec
  Proofs.ArrP Proofs.CoreP Proofs.TwoDP Proofs.TwoDQ Proofs.TwoDR Proofs.TwoDS Proofs.TwoDT Proofs.TwoDU Proofs.TwoDV Proofs.TwoDPairsP.
Import ListNotations.
Open Scope nat_scope.

Lemma finish2_P n sx sy fe fne rows sol P0 sp mi f : finish2 n sx sy fe fne rows sol P0 sp mi = Ok f -> t_P f = assign 0 (t_rows f) P0.
Proof.
  unfold finish2. destruct (same_lengths _ && _); [discriminate|]. unfold rbind.
  destruct (rmap _ (seq 0 _)) as [bx|]; [|discriminate]. destruct (rmap _ _) as [by'|]; [|discriminate]. intros [= <-]. reflexivity.
Qed.
(** every cell of an axis contains a number *)
Lemma cell_value_from s : increasing s -> forall b, (forall y, In y s -> (b < y)%Z) -> forall k, k <= length s -> exists v, (b <= v)%Z /\ digitize s v = k.
Proof.
  induction s as [|a s IH]; intros Hs b Hb k Hk.
  - exists b. split; [lia|]. cbn in *. lia.
  - apply incr_inv in Hs as [Hs Ha]. destruct k as [|k].
    + exists b. split; [lia|]. now apply digitize_all_gt.
    + destruct (IH Hs a Ha k ltac:(cbn in Hk; lia)) as (v & V1 & V2). exists v. specialize (Hb a (or_introl eq_refl)). split; [lia|]. cbn. destruct (Z.leb_spec a v); [now rewrite V2|lia].
Qed.
Lemma cell_value s k : increasing s -> k <= length s -> exists v, digitize s v = k.
Proof.
  intros Hs Hk. destruct s as [|a s]; [exists 0%Z; cbn in *; lia|]. pose proof (incr_inv _ _ Hs) as [Hs' Ha].
  destruct (cell_value_from (a :: s) Hs (a - 1)%Z) with (k := k) as (v & _ & V); [|exact Hk|eauto]. intros y [<-|Hy]; [lia|]. apply Ha in Hy. lia.
Qed.
Lemma edge_some s k : 1 <= k -> k <= length s -> exists a, edge s k = Some a.
Proof.
  intros H1 H2. destruct k as [|k]; [lia|]. pose proof (edge_nth s (S k) ltac:(lia)) as E. rewrite nth_error_edges_S in E by lia. injection E as <-.
  destruct (nth_error s k) as [a|] eqn:Ek; [eauto|]. apply nth_error_None in Ek. lia.
Qed.

Section Table.
Variables (sx sy fe fne : list Z) (srs : list rect) (sp mi : Z * Z) (f : fitted2) (P0 : list nat).
Let n := S (length sx). Let m := S (length sy).
Hypothesis HF : fit_of sx sy fe fne srs sp mi f.
Hypothesis HT : tiling m n srs.
Hypothesis HP0 : length P0 = m * n.
Hypothesis HP : t_P f = assign 0 (t_rows f) P0.
Hypothesis Hsx : increasing sx.
Hypothesis Hsy : increasing sy.

Lemma grid_lab y x : y < m -> x < n -> exists r, nth_error srs (nth (y * n + x) (t_P f) 0) = Some r /\ in_rect r y x.
Proof.
  intros Hy Hx. rewrite HP, (fo_rows _ _ _ _ _ _ _ _ HF). fold n. destruct (div_mod_grid m n P0 ltac:(unfold n; lia) HP0 y x Hx) as [D1 D2].
  destruct (proj2 HT y x Hy Hx) as (b & r & B1 & B2 & _).
  assert (Hc : y * n + x < m * n) by nia.
  destruct (proj2 (P_spec m n srs P0 ltac:(unfold n; lia) HT HP0 (y * n + x) b Hc)) as [E _]; [exists r; rewrite D1, D2; auto|]. rewrite E. eauto.
Qed.
Lemma bin_x a : nth_error (t_bx f) a = option_map (fun r => (edge sx (r_j r), edge sx (r_j r + r_l r))) (nth_error srs a).
Proof. now rewrite (fo_x _ _ _ _ _ _ _ _ HF), nth_error_map. Qed.
Lemma bin_y a : nth_error (t_by f) a = option_map (fun r => (edge sy (r_i r), edge sy (r_i r + r_k r))) (nth_error srs a).
Proof. now rewrite (fo_y _ _ _ _ _ _ _ _ HF), nth_error_map. Qed.
Lemma in_y a r v : nth_error srs a = Some r -> (in_interval (t_by f) a v <-> r_i r <= digitize sy v < r_i r + r_k r).
Proof.
  intros Ha. unfold in_interval. rewrite bin_y, Ha. cbn [option_map]. pose proof (proj1 HT r (nth_error_In _ _ Ha)) as (K1 & K2 & K3 & K4).
  apply in_bin_edges; [now apply incr_nondecr|lia|unfold m in K3; lia].
Qed.
Lemma in_x a r v : nth_error srs a = Some r -> (in_interval (t_bx f) a v <-> r_j r <= digitize sx v < r_j r + r_l r).
Proof.
  intros Ha. unfold in_interval. rewrite bin_x, Ha. cbn [option_map]. pose proof (proj1 HT r (nth_error_In _ _ Ha)) as (K1 & K2 & K3 & K4).
  apply in_bin_edges; [now apply incr_nondecr|lia|unfold n in K4; lia].
Qed.
Lemma right_adj a b r r' : nth_error srs a = Some r -> nth_error srs b = Some r' -> (right_of f a b <-> adj_x r r').
Proof.
  intros Ha Hb. pose proof (proj1 HT r (nth_error_In _ _ Ha)) as (K1 & K2 & K3 & K4). pose proof (proj1 HT r' (nth_error_In _ _ Hb)) as (K1' & K2' & K3' & K4').
  unfold right_of. rewrite bin_x, Ha, bin_x, Hb. cbn [option_map]. split.
  - intros (lo & s & hi & E1 & E2 & v & V1 & V2). apply (in_y a r v Ha) in V1. apply (in_y b r' v Hb) in V2. injection E1 as _ E1. injection E2 as E2 _.
    split; [exact (edge_inj sx _ _ s Hsx E1 E2)|]. eauto.
  - intros (E & y & Y1 & Y2). destruct (edge_some sx (r_j r + r_l r)) as (s & Es); [lia|unfold n in *; lia|].
    destruct (cell_value sy y Hsy) as (v & V); [unfold m in *; lia|]. exists (edge sx (r_j r)), s, (edge sx (r_j r' + r_l r')). rewrite Es, <- E, Es. do 2 (split; [reflexivity|]).
    exists v. split; [apply (in_y a r v Ha)|apply (in_y b r' v Hb)]; rewrite V; assumption.
Qed.
Lemma above_adj a b r r' : nth_error srs a = Some r -> nth_error srs b = Some r' -> (above f a b <-> adj_y r r').
Proof.
  intros Ha Hb. pose proof (proj1 HT r (nth_error_In _ _ Ha)) as (K1 & K2 & K3 & K4). pose proof (proj1 HT r' (nth_error_In _ _ Hb)) as (K1' & K2' & K3' & K4').
  unfold above. rewrite bin_y, Ha, bin_y, Hb. cbn [option_map]. split.
  - intros (lo & s & hi & E1 & E2 & v & V1 & V2). apply (in_x a r v Ha) in V1. apply (in_x b r' v Hb) in V2. injection E1 as _ E1. injection E2 as E2 _.
    split; [exact (edge_inj sy _ _ s Hsy E1 E2)|]. eauto.
  - intros (E & x & X1 & X2). destruct (edge_some sy (r_i r + r_k r)) as (s & Es); [lia|unfold m in *; lia|].
    destruct (cell_value sx x Hsx) as (v & V); [unfold n in *; lia|]. exists (edge sy (r_i r)), s, (edge sy (r_i r' + r_k r')). rewrite Es, <- E, Es. do 2 (split; [reflexivity|]).
    exists v. split; [apply (in_x a r v Ha)|apply (in_x b r' v Hb)]; rewrite V; assumption.
Qed.
Lemma table_tests_neighbours : tests_neighbours f (table_pairs m n f).
Proof.
  assert (Hpairs : table_pairs m n f = pairs m n (t_P f)) by reflexivity. rewrite Hpairs.
  assert (HL : length (t_bx f) = length srs) by (rewrite (fo_x _ _ _ _ _ _ _ _ HF); apply map_length).
  unfold tests_neighbours. rewrite HL.
  split; [|split; [|split]].
  - intros a b. split.
    + intros H. destruct (pairs_lt m n srs (t_P f) HT grid_lab a b H) as [La Lb]. destruct (nth_error srs a) as [r|] eqn:Ea; [|apply nth_error_None in Ea; lia]. destruct (nth_error srs b) as [r'|] eqn:Eb; [|apply nth_error_None in Eb; lia].
      apply (pairs_adj m n srs (t_P f) HT grid_lab a b r r' Ea Eb) in H. destruct H as [H|H]; [left; now apply (right_adj a b r r')|right; now apply (above_adj a b r r')].
    + intros H. assert (exists r r', nth_error srs a = Some r /\ nth_error srs b = Some r') as (r & r' & Ea & Eb).
      { destruct H as [(lo & s & hi & E1 & E2 & _)|(lo & s & hi & E1 & E2 & _)]; [rewrite bin_x in E1, E2|rewrite bin_y in E1, E2];
          destruct (nth_error srs a) as [r|]; try discriminate; destruct (nth_error srs b) as [r'|]; try discriminate; eauto. }
      apply (pairs_adj m n srs (t_P f) HT grid_lab a b r r' Ea Eb). destruct H as [H|H]; [left; now apply (right_adj a b r r')|right; now apply (above_adj a b r r')].
  - unfold pairs. destruct (get_paths m n (t_P f)). apply get_pairs_sorted.
  - intros a b H. destruct (pairs_lt m n srs (t_P f) HT grid_lab a b H) as [La Lb]. do 2 (split; [assumption|]). split; [|exact (adj_antisym m n srs (t_P f) HT grid_lab a b H)].
    apply (pairs_cells m n srs (t_P f) HT grid_lab) in H. tauto.
  - exact (all_linked m n srs (t_P f) HT grid_lab).
Qed.
End Table.
