(** Constraints of ls.py and constraints of cp.py on the same partition. *)
From Coq Require Import List ZArith Bool Arith Lia QArith Lqa.
From Verif Require Import Model.Arr Model.CP Model.LS Spec.CPSpec Spec.CPFitSpec Spec.LSSpec Proofs.CPP Proofs.CPC Proofs.CPTable Proofs.CPFinal Proofs.LSP.
Import ListNotations.
Open Scope Z_scope.

(** the request without what ls.py does not read and without the cuts *)
Definition strip (g : cp_cfg) : cp_cfg :=
  {| g_trend := g_trend g; g_min_bins := g_min_bins g; g_max_bins := g_max_bins g; g_min_size := g_min_size g; g_max_size := g_max_size g;
     g_min_ne := g_min_ne g; g_max_ne := g_max_ne g; g_min_e := g_min_e g; g_max_e := g_max_e g; g_md0 := false; g_fixed := g_fixed g; g_pviol := []; g_dviol := [] |}.

Section Link.
Variables (ne ev : list Z) (M k : Z) (v : ls_vars) (gs : list group).
Let n := length ne.
Hypothesis Hn : (0 < n)%nat.
Hypothesis Hl : length ne = length ev.
Hypothesis HB : ls_basic n v.
Hypothesis Hp : partition n gs.
Hypothesis HI : forall s e, In (s, e) gs <-> (e < n)%nat /\ l_x v e = 1 /\ l_z v e = Z.of_nat e - Z.of_nat s.
Let X := mat_of gs.
Let Hr : describes n gs X := mat_of_represents n gs.

Lemma lx i : (i < n)%nat -> l_x v i = X i i.
Proof.
  intros Hi. pose proof (ls_groups_selects n v Hn HB gs HI i Hi) as S. destruct (end_dec gs i) as [H|H].
  - rewrite (proj2 S H). symmetry. now apply (diag_end n gs X Hp Hr i Hi).
  - rewrite (diag0 n gs X Hr i Hi H). destruct (x01 n v HB i Hi) as [E|E]; [exact E|]. apply S in E as (s & I). now apply H in I.
Qed.
Lemma lval A i : (i < n)%nat -> ls_val A v i = row_rate A X i.
Proof.
  intros Hi. unfold ls_val. destruct (end_dec gs i) as [(s & H)|H].
  - rewrite (row_rate_end n gs X Hp Hr A s i H). pose proof (chain_in _ _ _ _ _ Hp H). apply HI in H as (_ & E1 & E2). rewrite E1, E2.
    replace (Z.of_nat i - Z.of_nat s) with (Z.of_nat (i - s)) by lia. rewrite ls_at_row by lia. replace (i - (i - s))%nat with s by lia. lia.
  - rewrite (row_rate_other n gs X Hr A i Hi H), (lx i Hi), (diag0 n gs X Hr i Hi H). lia.
Qed.
Lemma lsize l i : length l = n -> (i < n)%nat -> ls_val (cum_mat l) v i = row_size (at0 l) X i.
Proof.
  intros L Hi. rewrite (lval _ i Hi). destruct (end_dec gs i) as [(s & H)|H].
  - rewrite (row_rate_end n gs X Hp Hr _ s i H), (row_size_end n gs X Hp Hr _ s i H). pose proof (chain_in _ _ _ _ _ Hp H).
    rewrite cum_mat_gsum by lia. symmetry. apply sum_range_nth; lia.
  - now rewrite (row_rate_other n gs X Hr _ i Hi H), (row_size_other n gs X Hr _ i Hi H).
Qed.
Lemma lsize2 i : (i < n)%nat -> l_x v i * (ls_at (cum_mat ne) i (l_z v i) + ls_at (cum_mat ev) i (l_z v i)) = row_size (fun j => at0 ne j + at0 ev j) X i.
Proof.
  intros Hi. pose proof (lsize ne i eq_refl Hi) as A. pose proof (lsize ev i ltac:(unfold n; lia) Hi) as B. unfold ls_val in A, B.
  replace (row_size (fun j => at0 ne j + at0 ev j) X i) with (row_size (at0 ne) X i + row_size (at0 ev) X i); [lia|].
  unfold row_size. rewrite <- sum_range_plus. apply sum_range_ext. intros j _. lia.
Qed.
Lemma link_bins mn mx : ls_bins n mn mx v <-> min_max_bins n mn mx X.
Proof. unfold ls_bins, min_max_bins. cbv zeta. replace (sum_range 0 n (l_x v)) with (sum_range 0 n (fun i => X i i)); [reflexivity|]. apply sum_range_ext. intros i Hi. symmetry. apply lx. lia. Qed.
Lemma link_size mn mx : ls_size n mn mx (cum_mat ne) (cum_mat ev) v <-> min_max_bin_size n mn mx (fun j => at0 ne j + at0 ev j) X.
Proof.
  unfold ls_size, min_max_bin_size. cbv zeta. destruct mn as [a|], mx as [b|]; [| | |reflexivity].
  - split; intros (u & H); exists u; intros i Hi; specialize (H i Hi); rewrite (lsize2 i Hi), (lx i Hi) in *; exact H.
  - split; intros H i Hi; specialize (H i Hi); rewrite (lsize2 i Hi), (lx i Hi) in *; exact H.
  - split; intros H i Hi; specialize (H i Hi); rewrite (lsize2 i Hi), (lx i Hi) in *; exact H.
Qed.
Lemma link_count mn mx l : length l = n -> ls_count n mn mx (cum_mat l) v <-> min_max_count n mn mx (at0 l) X.
Proof. intros L. unfold ls_count, min_max_count. split; intros H i Hi; specialize (H i Hi); rewrite (lsize l i L Hi), (lx i Hi) in *; exact H. Qed.
Lemma link_fixed f : ls_fixed n f v <-> fixed_splits n f X.
Proof. unfold ls_fixed, fixed_splits. destruct f; [|reflexivity]. split; intros H i Hi E; specialize (H i Hi E); rewrite (lx i ltac:(lia)) in *; exact H. Qed.
Lemma link_concave D : ls_concave n D M v <-> concave n D M X.
Proof. unfold ls_concave, concave. split; intros H i j m A B C; specialize (H i j m A B C); rewrite !lval, !lx in * by lia; exact H. Qed.
Lemma link_convex D : ls_convex n D M v <-> convex n D M X.
Proof. unfold ls_convex, convex. split; intros H i j m A B C; specialize (H i j m A B C); rewrite !lval, !lx in * by lia; exact H. Qed.
Lemma lguard D i : (i < n)%nat -> (ls_at D i (l_z v i) - M) * l_x v i = row_rate D X i - M * X i i.
Proof. intros Hi. rewrite <- (lval D i Hi), <- (lx i Hi). unfold ls_val. ring. Qed.
Lemma link_peak D y : ls_peak n D M y v <-> peak n D M y X.
Proof.
  unfold ls_peak, peak. split; intros H i j A B; specialize (H i j A B); rewrite !lguard, !lval in * by lia; unfold row_rate in *; lia.
Qed.
Lemma link_valley D y : ls_valley n D M y v <-> valley n D M y X.
Proof.
  unfold ls_valley, valley. split; intros H i j A B; specialize (H i j A B); rewrite !lguard, !lval in * by lia; unfold row_rate in *; lia.
Qed.
Lemma link_objective V : ls_objective n V v = zsum (map (at_group V) gs).
Proof.
  rewrite <- (objective_groups n gs X Hn Hp Hr V). unfold ls_objective, objective. apply sum_range_ext. intros i Hi. rewrite lval by lia. unfold row_rate, tele. lia.
Qed.
Section Gap.
Variable D : mat.
Hypothesis HD : bounded n D M.
Hypothesis Hk : 0 <= k <= M.
(** between two selected prebins *)
Lemma ls_asc_iff i j : (i < n)%nat -> (j < n)%nat -> ls_asc D M k v i j <-> (forall s s', In (s, j) gs -> In (s', i) gs -> D j s + k <= D i s').
Proof.
  intros Hi Hj. unfold ls_asc. rewrite !lval, !lx by assumption. pose proof (row_bounds n gs X Hn Hp Hr D M HD i Hi) as Bi. pose proof (row_bounds n gs X Hn Hp Hr D M HD j Hj) as Bj.
  destruct (end_dec gs i) as [(si & Ii)|Ni], (end_dec gs j) as [(sj & Ij)|Nj].
  - rewrite (row_rate_end n gs X Hp Hr D si i Ii), (row_rate_end n gs X Hp Hr D sj j Ij), (diag1 n gs X Hp Hr si i Ii), (diag1 n gs X Hp Hr sj j Ij). split.
    + intros H s s' I I'. rewrite (chain_inj_e _ _ _ _ _ _ Hp I Ij), (chain_inj_e _ _ _ _ _ _ Hp I' Ii). lia.
    + intros H. specialize (H sj si Ij Ii). lia.
  - rewrite (row_rate_other n gs X Hr D j Hj Nj), (diag0 n gs X Hr j Hj Nj), (diag1 n gs X Hp Hr si i Ii). split; [intros _ s s' I _; now apply Nj in I|intros _; lia].
  - rewrite (row_rate_other n gs X Hr D i Hi Ni), (diag0 n gs X Hr i Hi Ni), (diag1 n gs X Hp Hr sj j Ij). split; [intros _ s s' _ I; now apply Ni in I|intros _; lia].
  - rewrite (row_rate_other n gs X Hr D i Hi Ni), (row_rate_other n gs X Hr D j Hj Nj), (diag0 n gs X Hr i Hi Ni), (diag0 n gs X Hr j Hj Nj). split; [intros _ s s' _ I; now apply Ni in I|intros _; lia].
Qed.
Lemma ls_desc_asc i j : ls_desc D M k v i j <-> ls_asc D M k v j i.
Proof. unfold ls_desc, ls_asc. replace (l_x v j + l_x v i - 1) with (l_x v i + l_x v j - 1) by ring. lia. Qed.
Definition gap_asc (lo hi : nat) : Prop := forall s1 e1 s2 e2, In (s1, e1) gs -> In (s2, e2) gs -> (lo <= e1)%nat -> (e1 < e2)%nat -> (e2 < hi)%nat -> D e1 s1 + k <= D e2 s2.
Definition gap_desc (lo hi : nat) : Prop := forall s1 e1 s2 e2, In (s1, e1) gs -> In (s2, e2) gs -> (lo <= e1)%nat -> (e1 < e2)%nat -> (e2 < hi)%nat -> D e2 s2 + k <= D e1 s1.
Lemma asc_gap lo hi : (hi <= n)%nat -> (forall i j, (lo <= j)%nat -> (j < i)%nat -> (i < hi)%nat -> ls_asc D M k v i j) <-> gap_asc lo hi.
Proof.
  intros Hh. split.
  - intros H s1 e1 s2 e2 I1 I2 A B C. specialize (H e2 e1 A B C). rewrite (ls_asc_iff e2 e1 ltac:(lia) ltac:(lia)) in H. now apply H.
  - intros H i j A B C. rewrite (ls_asc_iff i j ltac:(lia) ltac:(lia)). intros s s' I I'. now apply (H s j s' i).
Qed.
Lemma desc_gap lo hi : (hi <= n)%nat -> (forall i j, (lo <= j)%nat -> (j < i)%nat -> (i < hi)%nat -> ls_desc D M k v i j) <-> gap_desc lo hi.
Proof.
  intros Hh. split.
  - intros H s1 e1 s2 e2 I1 I2 A B C. specialize (H e2 e1 A B C). rewrite ls_desc_asc in H. rewrite (ls_asc_iff e1 e2 ltac:(lia) ltac:(lia)) in H. now apply H.
  - intros H i j A B C. rewrite ls_desc_asc. rewrite (ls_asc_iff j i ltac:(lia) ltac:(lia)). intros s s' I I'. now apply (H s' j s i).
Qed.
End Gap.
End Link.


