From Coq Require Import List ZArith QArith Lia Bool Arith Permutation.
From Verif Require Import Model.Arr Model.Core Model.TwoD Spec.CoreSpec Spec.TwoDSpec Proofs.ArrP Proofs.CoreP Proofs.TwoDP Proofs.TwoDQ.
Import ListNotations.
Open Scope nat_scope.

Lemma rmap_nth {A B} (f : A -> res B) l ys : rmap f l = Ok ys -> length ys = length l /\
  forall i a, nth_error l i = Some a -> exists y, nth_error ys i = Some y /\ f a = Ok y.
Proof.
  revert ys; induction l as [|a l IH]; intros ys H; cbn [rmap] in H.
  - injection H as <-. split; [reflexivity|]. intros [|i] ? Hi; discriminate.
  - unfold rbind in H. destruct (f a) as [y|] eqn:Ef; [|discriminate]. destruct (rmap f l) as [ys0|]; [|discriminate].
    injection H as <-. destruct (IH ys0 eq_refl) as [Hl Hn]. split; [cbn; now rewrite Hl|].
    intros [|i] c Hc; [injection Hc as <-; exists y; auto|]. now apply Hn.
Qed.

(** the edge with number j *)
Definition edge (s : list Z) (j : nat) : option Z := nth j (edges s) None.
Lemma edge_nth s j : j <= S (length s) -> nth_error (edges s) j = Some (edge s j).
Proof. intros H. destruct (nth_error_edges_some s j H) as [e He]. rewrite He. unfold edge. now rewrite (nth_error_nth _ _ _ He). Qed.
Lemma in_bin_edges s j k x : nondecreasing s -> j < k -> k <= S (length s) ->
  (in_bin (edge s j) (edge s k) x <-> j <= digitize s x < k).
Proof.
  intros Hs Hjk Hk. unfold in_bin. pose proof (digitize_ge s x j Hs ltac:(lia)) as H1. pose proof (digitize_lt s x k Hs ltac:(lia) Hk) as H2.
  rewrite edge_nth in H1 by lia. rewrite edge_nth in H2 by lia. tauto.
Qed.

Section P.
Variables (m n : nat) (srs : list rect) (P0 : list nat).
Hypothesis Hn : 0 < n.
Hypothesis HT : tiling m n srs.
Hypothesis HP0 : length P0 = m * n.
Let P := assign 0 (map (cells n) srs) P0.
Lemma P_length : length P = m * n. Proof. unfold P. now rewrite assign_length. Qed.
Lemma P_spec c b : c < m * n -> (nth c P 0 = b /\ b < length srs <-> exists r, nth_error srs b = Some r /\ in_rect r (c / n) (c mod n)).
Proof.
  intros Hc. destruct HT as [Hok Hcov].
  assert (Hy : c / n < m) by (apply Nat.div_lt_upper_bound; lia).
  assert (Hx : c mod n < n) by (apply Nat.mod_upper_bound; lia).
  destruct (Hcov _ _ Hy Hx) as (b0 & r0 & Hb0 & Hr0 & Hu).
  assert (Ein : forall r b1, nth_error srs b1 = Some r -> (In c (cells n r) <-> in_rect r (c / n) (c mod n))).
  { intros r b1 Hr. rewrite (cell_coord n c Hn) at 1. apply (cells_In_coord m); [apply Hok; eapply nth_error_In; eauto|exact Hx]. }
  assert (E : nth c P 0 = b0).
  { unfold P. rewrite (assign_nth 0 _ _ _ b0 (cells n r0)); [reflexivity|lia| | |].
    - rewrite nth_error_map, Hb0. reflexivity.
    - now apply (Ein _ _ Hb0).
    - intros b' row' Hb' Hin. rewrite nth_error_map in Hb'. destruct (nth_error srs b') as [r'|] eqn:Er'; [|discriminate].
      injection Hb' as <-. apply (Hu b' r' Er'). now apply (Ein _ _ Er'). }
  rewrite E. split.
  - intros [<- _]. eauto.
  - intros (r & Hr & Hin). rewrite (Hu b r Hr Hin) in *. split; [reflexivity|]. apply nth_error_Some. congruence.
Qed.
Lemma pos_In b r c : nth_error srs b = Some r -> (In c (filter (fun c => Nat.eqb (nth c P 0) b) (seq 0 (length P))) <-> c < m * n /\ in_rect r (c / n) (c mod n)).
Proof.
  intros Hr. rewrite filter_In, in_seq, P_length, Nat.eqb_eq. assert (Hb : b < length srs) by (apply nth_error_Some; congruence). split.
  - intros [Hc E]. split; [lia|]. destruct (proj1 (P_spec c b ltac:(lia)) (conj E Hb)) as (r' & Hr' & Hin). rewrite Hr in Hr'. now injection Hr' as <-.
  - intros [Hc Hin]. split; [lia|]. apply (P_spec c b Hc). eauto.
Qed.
Lemma div_mod_grid y x : x < n -> (y * n + x) / n = y /\ (y * n + x) mod n = x.
Proof.
  intros H. split.
  - rewrite Nat.div_add_l by lia. rewrite Nat.div_small by lia. lia.
  - rewrite Nat.add_comm, Nat.mod_add by lia. now apply Nat.mod_small.
Qed.
Lemma interval_gen b r (coord : nat -> nat) s lo len : nth_error srs b = Some r -> 0 < len -> lo + len <= S (length s) ->
  (forall c, c < m * n -> in_rect r (c / n) (c mod n) -> lo <= coord c < lo + len) ->
  (forall k, lo <= k < lo + len -> exists c, c < m * n /\ in_rect r (c / n) (c mod n) /\ coord c = k) ->
  bin_interval P b coord s = Ok (edge s lo, edge s (lo + len)).
Proof.
  intros Hr Hlen Hle H1 H2. unfold bin_interval.
  set (pos := map coord (filter (fun c => Nat.eqb (nth c P 0) b) (seq 0 (length P)))) in *.
  assert (Hpos : forall k, In k pos <-> lo <= k < lo + len).
  { intros k. unfold pos. rewrite in_map_iff. split.
    - intros (c & <- & Hc). apply (pos_In b r c Hr) in Hc as [Hc Hin]. now apply H1.
    - intros Hk. destruct (H2 k Hk) as (c & Hc & Hin & <-). exists c. split; [reflexivity|]. now apply (pos_In b r c Hr). }
  assert (Hmin : list_min pos = lo) by (apply list_min_eq; [apply Hpos; lia|intros x Hx; apply Hpos in Hx; lia]).
  assert (Hmax : list_max' pos = lo + len - 1) by (apply list_max_eq; [apply Hpos; lia|intros x Hx; apply Hpos in Hx; lia]).
  rewrite Hmin, Hmax. replace (S (lo + len - 1)) with (lo + len) by lia.
  rewrite edge_list_edges, !edge_nth by lia. destruct pos as [|a pos'] eqn:Ep; [|reflexivity].
  exfalso. apply (proj2 (Hpos lo)). lia.
Qed.
Lemma interval_x b r s : n = S (length s) -> nth_error srs b = Some r ->
  bin_interval P b (fun c => c mod n) s = Ok (edge s (r_j r), edge s (r_j r + r_l r)).
Proof.
  intros En Hr. pose proof (proj1 HT r (nth_error_In _ _ Hr)) as (Hk & Hl & Hm & Hnn).
  apply (interval_gen b r); [exact Hr|lia|lia| |].
  - intros c _ [_ H]. exact H.
  - intros k Hk'. exists (r_i r * n + k). destruct (div_mod_grid (r_i r) k ltac:(lia)) as [E1 E2]. unfold in_rect. rewrite E1, E2.
    split; [nia|]. split; [split; lia|reflexivity].
Qed.
Lemma interval_y b r s : m = S (length s) -> nth_error srs b = Some r ->
  bin_interval P b (fun c => c / n) s = Ok (edge s (r_i r), edge s (r_i r + r_k r)).
Proof.
  intros En Hr. pose proof (proj1 HT r (nth_error_In _ _ Hr)) as (Hk & Hl & Hm & Hnn).
  apply (interval_gen b r); [exact Hr|lia|lia| |].
  - intros c _ [H _]. exact H.
  - intros k Hk'. exists (k * n + r_j r). destruct (div_mod_grid k (r_j r) ltac:(lia)) as [E1 E2]. unfold in_rect. rewrite E1, E2.
    split; [nia|]. split; [split; lia|reflexivity].
Qed.
End P.

(** what the fit stores, in terms of the selected rectangles *)
Record fit_of (sx sy : list Z) (fe fne : list Z) (srs : list rect) (sp mi : Z * Z) (f : fitted2) : Prop := {
  fo_x : t_bx f = map (fun r => (edge sx (r_j r), edge sx (r_j r + r_l r))) srs;
  fo_y : t_by f = map (fun r => (edge sy (r_i r), edge sy (r_i r + r_k r))) srs;
  fo_ne : t_nev f = map (fun r => cell_sum fne (cells (S (length sx)) r)) srs ++ [fst sp; fst mi];
  fo_e : t_ev f = map (fun r => cell_sum fe (cells (S (length sx)) r)) srs ++ [snd sp; snd mi];
  fo_rows : t_rows f = map (cells (S (length sx))) srs }.
Lemma finish2_fit sx sy fe fne rs sol P0 sp mi f : let n := S (length sx) in let m := S (length sy) in
  tiling m n (select sol rs) -> length P0 = m * n ->
  finish2 n sx sy fe fne (map (cells n) rs) sol P0 sp mi = Ok f -> fit_of sx sy fe fne (select sol rs) sp mi f.
Proof.
  intros n m HT HP0 H. unfold finish2 in H. rewrite select_map in H. set (srs := select sol rs) in *.
  destruct (same_lengths _ && _); [discriminate|]. unfold rbind in H.
  destruct (rmap _ (seq 0 (length (map (cells n) srs)))) as [bx|] eqn:Ex; [|discriminate].
  destruct (rmap (fun i => bin_interval _ i (fun c => c / n) sy) _) as [by'|] eqn:Ey; [|discriminate].
  injection H as <-. apply rmap_nth in Ex as [Lx Nx]. apply rmap_nth in Ey as [Ly Ny].
  rewrite seq_length, map_length in Lx, Ly.
  assert (Hn0 : 0 < n) by (unfold n; lia).
  constructor; cbn [t_bx t_by t_nev t_ev t_rows]; try reflexivity.
  - apply nth_error_ext. intros b. destruct (Nat.lt_ge_cases b (length srs)) as [Hb|Hb].
    + destruct (nth_error srs b) as [r|] eqn:Er; [|apply nth_error_None in Er; lia].
      destruct (Nx b b) as (iv & Hiv & E); [apply nth_error_seq0; now rewrite map_length|].
      rewrite nth_error_map, Er, Hiv. cbn [option_map]. f_equal. fold n in E. rewrite (interval_x m n srs P0 Hn0 HT HP0 b r sx eq_refl Er) in E. now injection E as <-.
    + transitivity (@None (option Z * option Z)); [|symmetry]; apply nth_error_None; [lia|now rewrite map_length].
  - apply nth_error_ext. intros b. destruct (Nat.lt_ge_cases b (length srs)) as [Hb|Hb].
    + destruct (nth_error srs b) as [r|] eqn:Er; [|apply nth_error_None in Er; lia].
      destruct (Ny b b) as (iv & Hiv & E); [apply nth_error_seq0; now rewrite map_length|].
      rewrite nth_error_map, Er, Hiv. cbn [option_map]. f_equal. fold n in E. rewrite (interval_y m n srs P0 Hn0 HT HP0 b r sy eq_refl Er) in E. now injection E as <-.
    + transitivity (@None (option Z * option Z)); [|symmetry]; apply nth_error_None; [lia|now rewrite map_length].
  - f_equal. now rewrite map_map.
  - f_equal. now rewrite map_map.
Qed.
(** and the fit never fails after a feasible solution unless all the candidate rectangles have the same number of cells *)
Lemma rmap_ok {A B} (f : A -> res B) l : (forall a, In a l -> exists y, f a = Ok y) -> exists ys, rmap f l = Ok ys.
Proof.
  induction l as [|a l IH]; intros H; [exists []; reflexivity|]. destruct (H a (or_introl eq_refl)) as [y Hy].
  destruct (IH (fun b Hb => H b (or_intror Hb))) as [ys Hys]. exists (y :: ys). cbn [rmap]. rewrite Hy. cbn [rbind]. rewrite Hys. reflexivity.
Qed.
Lemma finish2_ok sx sy fe fne rs sol P0 sp mi : let n := S (length sx) in let m := S (length sy) in
  tiling m n (select sol rs) -> length P0 = m * n -> same_lengths (map (cells n) rs) = false ->
  exists f, finish2 n sx sy fe fne (map (cells n) rs) sol P0 sp mi = Ok f.
Proof.
  intros n m HT HP0 Hs. unfold finish2. rewrite select_map, Hs. set (srs := select sol rs) in *. cbn [andb].
  assert (Hn0 : 0 < n) by (unfold n; lia).
  destruct (rmap_ok (fun i => bin_interval (assign 0 (map (cells n) srs) P0) i (fun c => c mod n) sx) (seq 0 (length (map (cells n) srs)))) as [bx Ex].
  { intros b Hb. apply in_seq in Hb. rewrite map_length in Hb. destruct (nth_error srs b) as [r|] eqn:Er; [|apply nth_error_None in Er; lia].
    rewrite (interval_x m n srs P0 Hn0 HT HP0 b r sx eq_refl Er). eauto. }
  destruct (rmap_ok (fun i => bin_interval (assign 0 (map (cells n) srs) P0) i (fun c => c / n) sy) (seq 0 (length (map (cells n) srs)))) as [by' Ey].
  { intros b Hb. apply in_seq in Hb. rewrite map_length in Hb. destruct (nth_error srs b) as [r|] eqn:Er; [|apply nth_error_None in Er; lia].
    rewrite (interval_y m n srs P0 Hn0 HT HP0 b r sy eq_refl Er). eauto. }
  rewrite Ex. cbn [rbind]. rewrite Ey. cbn [rbind]. eauto.
Qed.
