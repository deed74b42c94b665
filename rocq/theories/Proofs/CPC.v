From Coq Require Import List ZArith Bool Arith Lia Sorting.
From Verif Require Import Model.Arr Model.CP Spec.CPSpec Proofs.ArrP Proofs.CPP.
Import ListNotations.
Open Scope Z_scope.

Definition bounded (n : nat) (D : mat) (M : Z) : Prop :=
  forall i j, (i < n)%nat -> (j <= i)%nat -> 0 <= D i j <= M.
(** value of a candidate bin in a model matrix *)
Definition at_group (D : mat) (g : group) : Z := D (snd g) (fst g).

Section Constr.
Variables (n : nat) (gs : list group) (X : mat).
Hypothesis Hn : (0 < n)%nat.
Hypothesis Hp : partition n gs.
Hypothesis Hr : represents n gs X.

Lemma in_lt s e : In (s, e) gs -> (s <= e /\ e < n)%nat.
Proof. intros H. pose proof (chain_in _ _ _ _ _ Hp H). lia. Qed.

Lemma min_max_bins_iff mn mx : min_max_bins n mn mx X <->
  (forall a, mn = Some a -> a <= Z.of_nat (length gs)) /\ (forall b, mx = Some b -> Z.of_nat (length gs) <= b).
Proof.
  unfold min_max_bins. cbv zeta. rewrite (trace_length n gs X Hp Hr).
  destruct mn as [a|], mx as [b|]; split; intros H.
  - destruct H as (d & Hd & E). split; intros ? E1; injection E1 as <-; lia.
  - destruct H as [H1 H2]. specialize (H1 a eq_refl). specialize (H2 b eq_refl).
    exists (b - Z.of_nat (length gs)). lia.
  - split; intros ? E1; [injection E1 as <-; lia|discriminate].
  - destruct H as [H1 _]. specialize (H1 a eq_refl). lia.
  - split; intros ? E1; [discriminate|injection E1 as <-; lia].
  - destruct H as [_ H1]. specialize (H1 b eq_refl). lia.
  - split; intros ? E1; discriminate.
  - exact I.
Qed.

Definition size_bounds (cnt : nat -> Z) (mn mx : option Z) : Prop :=
  forall s e, In (s, e) gs ->
    (forall a, mn = Some a -> a <= sum_range s (S e) cnt) /\ (forall b, mx = Some b -> sum_range s (S e) cnt <= b).

Lemma min_max_count_iff mn mx cnt : min_max_count n mn mx cnt X <-> size_bounds cnt mn mx.
Proof.
  unfold min_max_count, size_bounds. split.
  - intros H s e Hin. pose proof (in_lt _ _ Hin) as Hilt. destruct (H e) as [H1 H2]; [lia|].
    rewrite (row_size_end n gs X Hp Hr cnt s e Hin), (diag1 n gs X Hp Hr s e Hin) in *.
    split; intros v E; [specialize (H1 v E)|specialize (H2 v E)]; lia.
  - intros H i Hi. destruct (end_dec gs i) as [[s Hin]|Hno].
    + rewrite (row_size_end n gs X Hp Hr cnt s i Hin), (diag1 n gs X Hp Hr s i Hin).
      destruct (H s i Hin) as [H1 H2]. split; intros v E; [specialize (H1 v E)|specialize (H2 v E)]; lia.
    + rewrite (row_size_other n gs X Hr cnt i Hi Hno), (diag0 n gs X Hr i Hi Hno). split; intros; lia.
Qed.

Lemma min_max_bin_size_iff mn mx cnt : min_max_bin_size n mn mx cnt X <-> size_bounds cnt mn mx.
Proof.
  rewrite <- min_max_count_iff. unfold min_max_bin_size, min_max_count.
  destruct mn as [a|], mx as [b|]; split; intros H.
  - destruct H as (u & H). intros i Hi. destruct (H i Hi) as (H1 & H2 & H3).
    assert (X i i = 0 \/ X i i = 1) as HX by (apply Hr; lia).
    split; intros v E; injection E as <-; nia.
  - exists (fun i => b * X i i - row_size cnt X i). intros i Hi. destruct (H i Hi) as [H1 H2].
    specialize (H1 a eq_refl). specialize (H2 b eq_refl).
    assert (X i i = 0 \/ X i i = 1) as HX by (apply Hr; lia).
    assert (a <= b).
    { destruct (chain_last 0 n gs Hn Hp) as [s Hs].
      destruct (H (n - 1)%nat) as [G1 G2]; [lia|]. specialize (G1 a eq_refl). specialize (G2 b eq_refl).
      rewrite (diag1 n gs X Hp Hr _ _ Hs) in *. lia. }
    nia.
  - intros i Hi. split; intros v E; [injection E as <-; auto|discriminate].
  - intros i Hi. now apply H.
  - intros i Hi. split; intros v E; [discriminate|injection E as <-; auto].
  - intros i Hi. now apply H.
  - intros i Hi. split; intros v E; discriminate.
  - exact I.
Qed.

Section Rates.
Variables (D : mat) (M : Z).
Hypothesis HD : bounded n D M.
Lemma HM : 0 <= M. Proof. pose proof (HD 0%nat 0%nat Hn ltac:(lia)). lia. Qed.
Lemma row_bounds i : (i < n)%nat -> 0 <= row_rate D X i <= M.
Proof.
  intros Hi. destruct (end_dec gs i) as [[s Hin]|Hno].
  - rewrite (row_rate_end n gs X Hp Hr D s i Hin). pose proof (in_lt _ _ Hin) as Hilt. apply HD; lia.
  - rewrite (row_rate_other n gs X Hr D i Hi Hno). pose proof HM. lia.
Qed.

Lemma asc_row i z : asc_constr D X M i z <-> row_rate D X z <= row_rate D X i + M * (1 - X i i).
Proof. unfold asc_constr, row_rate. lia. Qed.
Lemma desc_row i z : desc_constr D X M i z <-> row_rate D X i <= row_rate D X z + M * (1 - X z z).
Proof. unfold desc_constr, row_rate. lia. Qed.

(** big-M: both rows relevant or nothing to check *)
Lemma le_guard_iff i z : (i < n)%nat -> (z < n)%nat ->
  row_rate D X z <= row_rate D X i + M * (1 - X i i) <->
  (forall s s', In (s, z) gs -> In (s', i) gs -> D z s <= D i s').
Proof.
  intros Hi Hz. destruct (end_dec gs i) as [[si Hin]|Hno]; destruct (end_dec gs z) as [[sz Hinz]|Hnoz].
  - rewrite (row_rate_end n gs X Hp Hr D si i Hin), (row_rate_end n gs X Hp Hr D sz z Hinz), (diag1 n gs X Hp Hr si i Hin).
    split; intros H.
    + intros s s' Ha Hb. rewrite (chain_inj_e _ _ _ _ _ _ Hp Ha Hinz), (chain_inj_e _ _ _ _ _ _ Hp Hb Hin). lia.
    + specialize (H _ _ Hinz Hin). lia.
  - split; [intros _ s s' Ha; exfalso; eapply Hnoz; eauto|intros _].
    rewrite (row_rate_other n gs X Hr D z Hz Hnoz), (diag1 n gs X Hp Hr si i Hin). pose proof (row_bounds i Hi). lia.
  - split; [intros _ s s' _ Hb; exfalso; eapply Hno; eauto|intros _].
    rewrite (diag0 n gs X Hr i Hi Hno), (row_rate_other n gs X Hr D i Hi Hno). pose proof (row_bounds z Hz). lia.
  - split; [intros _ s s' _ Hb; exfalso; eapply Hno; eauto|intros _].
    rewrite (diag0 n gs X Hr i Hi Hno), (row_rate_other n gs X Hr D i Hi Hno). pose proof (row_bounds z Hz). lia.
Qed.

Definition range_asc (lo hi : nat) : Prop := forall s1 e1 s2 e2, In (s1, e1) gs -> In (s2, e2) gs ->
  (lo <= e1)%nat -> (e1 < e2)%nat -> (e2 < hi)%nat -> D e1 s1 <= D e2 s2.
Definition range_desc (lo hi : nat) : Prop := forall s1 e1 s2 e2, In (s1, e1) gs -> In (s2, e2) gs ->
  (lo <= e1)%nat -> (e1 < e2)%nat -> (e2 < hi)%nat -> D e2 s2 <= D e1 s1.

Lemma asc_range_iff lo hi : (hi <= n)%nat ->
  (forall i z, (lo <= z)%nat -> (z < i)%nat -> (i < hi)%nat -> asc_constr D X M i z) <-> range_asc lo hi.
Proof.
  intros Hh. split.
  - intros H s1 e1 s2 e2 I1 I2 H1 H2 H3. pose proof (in_lt _ _ I1). pose proof (in_lt _ _ I2).
    specialize (H e2 e1 H1 H2 H3). rewrite asc_row, le_guard_iff in H by lia. auto.
  - intros H i z Hlo Hzi Hi. rewrite asc_row, le_guard_iff by lia. intros s s' Ha Hb. eapply H; eauto.
Qed.
Lemma desc_range_iff lo hi : (hi <= n)%nat ->
  (forall i z, (lo <= z)%nat -> (z < i)%nat -> (i < hi)%nat -> desc_constr D X M i z) <-> range_desc lo hi.
Proof.
  intros Hh. split.
  - intros H s1 e1 s2 e2 I1 I2 H1 H2 H3. pose proof (in_lt _ _ I1). pose proof (in_lt _ _ I2).
    specialize (H e2 e1 H1 H2 H3). rewrite desc_row, le_guard_iff in H by lia. auto.
  - intros H i z Hlo Hzi Hi. rewrite desc_row, le_guard_iff by lia. intros s s' Ha Hb. eapply H; eauto.
Qed.

Definition g_le (g1 g2 : group) : Prop := at_group D g1 <= at_group D g2.
Definition g_ge (g1 g2 : group) : Prop := at_group D g2 <= at_group D g1.

Lemma pairs_asc : all_pairs g_le gs <-> range_asc 0 n.
Proof.
  rewrite (chain_pairs _ _ _ g_le Hp). unfold g_le, at_group, range_asc. cbn [fst snd]. split.
  - intros H s1 e1 s2 e2 I1 I2 _ H2 _. apply H; assumption.
  - intros H s1 e1 s2 e2 I1 I2 H2. pose proof (in_lt _ _ I2). apply H; auto; lia.
Qed.
Lemma pairs_desc : all_pairs g_ge gs <-> range_desc 0 n.
Proof.
  rewrite (chain_pairs _ _ _ g_ge Hp). unfold g_ge, at_group, range_desc. cbn [fst snd]. split.
  - intros H s1 e1 s2 e2 I1 I2 _ H2 _. apply H; assumption.
  - intros H s1 e1 s2 e2 I1 I2 H2. pose proof (in_lt _ _ I2). apply H; auto; lia.
Qed.
Lemma ascending_iff md0 : ascending n D M md0 X <->
  all_pairs g_le gs /\ (md0 = true -> preproc 0 n 0 (fun v => v > 0) D X).
Proof.
  unfold ascending. rewrite pairs_asc, <- asc_range_iff by lia.
  split; intros [H1 H2]; (split; [|exact H2]); intros; apply H1; lia.
Qed.
Lemma descending_iff md0 : descending n D M md0 X <->
  all_pairs g_ge gs /\ (md0 = true -> preproc 0 n 0 (fun v => v < 0) D X).
Proof.
  unfold descending. rewrite pairs_desc, <- desc_range_iff by lia.
  split; intros [H1 H2]; (split; [|exact H2]); intros; apply H1; lia.
Qed.

(** up-then-down at a cut *)
Lemma all_pairs_sub {A} (P Q : A -> A -> Prop) l : (forall a b, In a l -> In b l -> P a b -> Q a b) -> all_pairs P l -> all_pairs Q l.
Proof.
  unfold all_pairs. intros H HP. induction HP as [|a l Hf HP IH]; constructor.
  - rewrite Forall_forall in *. intros b Hb. apply H; [now left|now right|auto].
  - apply IH. intros; apply H; auto; now right.
Qed.
Lemma range_cut_up_down c : range_asc 0 c -> range_desc c n -> up_down g_le gs.
Proof.
  intros Ha Hd. destruct (chain_split_at _ _ _ c Hp) as (g1 & g2 & E & Hlt & Hge).
  exists g1, g2. split; [exact E|].
  assert (Hc : chain 0 n (g1 ++ g2)) by (rewrite <- E; exact Hp).
  destruct (chain_app _ _ _ _ Hc) as (m & C1 & C2). split.
  - apply (chain_pairs _ _ _ _ C1). intros s1 e1 s2 e2 I1 I2 H. unfold g_le, at_group. cbn.
    apply Ha; [| | lia | lia|]; [rewrite E; apply in_or_app; now left| rewrite E; apply in_or_app; now left|].
    exact (Hlt s2 e2 I2).
  - apply (chain_pairs _ _ _ _ C2). intros s1 e1 s2 e2 I1 I2 H. unfold g_le, at_group. cbn.
    apply Hd; [rewrite E; apply in_or_app; now right| rewrite E; apply in_or_app; now right| exact (Hge s1 e1 I1)|lia|].
    apply (chain_in _ _ _ _ _ C2) in I2. lia.
Qed.
Lemma up_down_range_cut : up_down g_le gs -> exists c, (c <= n)%nat /\ range_asc 0 c /\ range_desc c n.
Proof.
  intros (g1 & g2 & E & H1 & H2).
  assert (Hc : chain 0 n (g1 ++ g2)) by (rewrite <- E; exact Hp).
  destruct (chain_app _ _ _ _ Hc) as (m & C1 & C2). exists m.
  split; [exact (chain_le _ _ _ C2)|].
  assert (L : forall s e, In (s, e) gs -> (e < m)%nat -> In (s, e) g1).
  { intros s e Hin Hlt. rewrite E in Hin. apply in_app_or in Hin. destruct Hin as [|Hin]; [assumption|].
    apply (chain_in _ _ _ _ _ C2) in Hin. lia. }
  assert (R : forall s e, In (s, e) gs -> (m <= e)%nat -> In (s, e) g2).
  { intros s e Hin Hlt. rewrite E in Hin. apply in_app_or in Hin. destruct Hin as [Hin|]; [|assumption].
    apply (chain_in _ _ _ _ _ C1) in Hin. lia. }
  split.
  - intros s1 e1 s2 e2 I1 I2 _ Hlt Hm. apply (proj1 (chain_pairs _ _ _ _ C1) H1 s1 e1 s2 e2); [apply L; [exact I1|lia]|apply L; [exact I2|lia]|lia].
  - intros s1 e1 s2 e2 I1 I2 Hm Hlt _. apply (proj1 (chain_pairs _ _ _ _ C2) H2 s1 e1 s2 e2); [apply R; [exact I1|lia]|apply R; [exact I2|lia]|lia].
Qed.
(** down-then-up, symmetric *)
Lemma range_cut_down_up c : range_desc 0 c -> range_asc c n -> up_down g_ge gs.
Proof.
  intros Ha Hd. destruct (chain_split_at _ _ _ c Hp) as (g1 & g2 & E & Hlt & Hge).
  exists g1, g2. split; [exact E|].
  assert (Hc : chain 0 n (g1 ++ g2)) by (rewrite <- E; exact Hp).
  destruct (chain_app _ _ _ _ Hc) as (m & C1 & C2). split.
  - apply (chain_pairs _ _ _ _ C1). intros s1 e1 s2 e2 I1 I2 H. unfold g_ge, at_group. cbn.
    apply Ha; [| | lia | lia|]; [rewrite E; apply in_or_app; now left| rewrite E; apply in_or_app; now left|].
    exact (Hlt s2 e2 I2).
  - apply (chain_pairs _ _ _ _ C2). intros s1 e1 s2 e2 I1 I2 H. unfold g_ge, at_group. cbn.
    apply Hd; [rewrite E; apply in_or_app; now right| rewrite E; apply in_or_app; now right| exact (Hge s1 e1 I1)|lia|].
    apply (chain_in _ _ _ _ _ C2) in I2. lia.
Qed.
Lemma down_up_range_cut : up_down g_ge gs -> exists c, (c <= n)%nat /\ range_desc 0 c /\ range_asc c n.
Proof.
  intros (g1 & g2 & E & H1 & H2).
  assert (Hc : chain 0 n (g1 ++ g2)) by (rewrite <- E; exact Hp).
  destruct (chain_app _ _ _ _ Hc) as (m & C1 & C2). exists m.
  split; [exact (chain_le _ _ _ C2)|].
  assert (L : forall s e, In (s, e) gs -> (e < m)%nat -> In (s, e) g1).
  { intros s e Hin Hlt. rewrite E in Hin. apply in_app_or in Hin. destruct Hin as [|Hin]; [assumption|].
    apply (chain_in _ _ _ _ _ C2) in Hin. lia. }
  assert (R : forall s e, In (s, e) gs -> (m <= e)%nat -> In (s, e) g2).
  { intros s e Hin Hlt. rewrite E in Hin. apply in_app_or in Hin. destruct Hin as [Hin|]; [|assumption].
    apply (chain_in _ _ _ _ _ C1) in Hin. lia. }
  split.
  - intros s1 e1 s2 e2 I1 I2 _ Hlt Hm. apply (proj1 (chain_pairs _ _ _ _ C1) H1 s1 e1 s2 e2); [apply L; [exact I1|lia]|apply L; [exact I2|lia]|lia].
  - intros s1 e1 s2 e2 I1 I2 Hm Hlt _. apply (proj1 (chain_pairs _ _ _ _ C2) H2 s1 e1 s2 e2); [apply R; [exact I1|lia]|apply R; [exact I2|lia]|lia].
Qed.

(** the change point variables cut 0..n-1 into y = 1 | y = 0 *)
Lemma change_point_cut y t : change_point n y t -> exists c, (c <= n)%nat /\
  (forall i, (i < c)%nat -> y i = 1) /\ (forall i, (c <= i < n)%nat -> y i = 0).
Proof.
  intros (Ht & H01 & H).
  destruct (Z_lt_le_dec t (Z.of_nat n)) as [Hlt|Hge].
  - set (k := Z.to_nat t). assert (Hk : Z.of_nat k = t) by (unfold k; lia).
    destruct (H01 k) as [E|E]; [lia| |].
    + exists k. split; [lia|]. split; intros i Hi; destruct (H01 i ltac:(lia)) as [Ei|Ei]; try exact Ei;
        destruct (H i ltac:(lia)) as [G1 G2]; rewrite Ei in *; try lia.
      assert (i = k) by lia. subst i. lia.
    + exists (S k). split; [lia|]. split; intros i Hi; destruct (H01 i ltac:(lia)) as [Ei|Ei]; try exact Ei;
        destruct (H i ltac:(lia)) as [G1 G2]; rewrite Ei in *; try lia.
      assert (i = k) by lia. subst i. lia.
  - exists n. split; [lia|]. split; intros i Hi; [|lia].
    destruct (H01 i ltac:(lia)) as [Ei|Ei]; [|exact Ei]. destruct (H i ltac:(lia)) as [G1 G2]. rewrite Ei in *. lia.
Qed.
Definition cut_y (c : nat) (i : nat) : Z := if (i <? c)%nat then 1 else 0.
Lemma cut_change_point c : (c <= n)%nat -> change_point n (cut_y c) (Z.of_nat c).
Proof.
  intros Hc. split; [lia|]. split; intros i Hi; unfold cut_y; destruct (Nat.ltb_spec i c); lia.
Qed.

Lemma peak_row y i z : (M * (y i + y z) + M + (D z z - M) * X z z + tele D X z - tele D X i - D i i * X i i >= 0) <->
  row_rate D X i <= row_rate D X z + M * (1 - X z z) + M * (y i + y z).
Proof. unfold row_rate. lia. Qed.
Lemma peak_row2 y i z : (M * (2 - y i - y z) + M + (D i i - M) * X i i + tele D X i - tele D X z - D z z * X z z >= 0) <->
  row_rate D X z <= row_rate D X i + M * (1 - X i i) + M * (2 - y i - y z).
Proof. unfold row_rate. lia. Qed.
Lemma valley_row y i z : (M * (y i + y z) + M + (D i i - M) * X i i + tele D X i - tele D X z - D z z * X z z >= 0) <->
  row_rate D X z <= row_rate D X i + M * (1 - X i i) + M * (y i + y z).
Proof. unfold row_rate. lia. Qed.
Lemma valley_row2 y i z : (M * (2 - y i - y z) + M + (D z z - M) * X z z + tele D X z - tele D X i - D i i * X i i >= 0) <->
  row_rate D X i <= row_rate D X z + M * (1 - X z z) + M * (2 - y i - y z).
Proof. unfold row_rate. lia. Qed.

Lemma diag01 i : (i < n)%nat -> X i i = 0 \/ X i i = 1.
Proof. intros Hi. apply Hr; lia. Qed.

Lemma guard_nonneg i : (i < n)%nat -> 0 <= M * (1 - X i i).
Proof. intros Hi. pose proof HM. destruct (diag01 i Hi) as [-> | ->]; lia. Qed.

Lemma peak_iff : (exists y t, change_point n y t /\ peak n D M y X) <-> up_down g_le gs.
Proof.
  split.
  - intros (y & t & Hc & H). destruct (change_point_cut y t Hc) as (c & Hcn & Y1 & Y0).
    apply (range_cut_up_down c).
    + apply asc_range_iff; [lia|]. intros i z _ Hzi Hi. destruct (H i z) as [_ H2]; [lia|lia|].
      rewrite peak_row2 in H2. rewrite (Y1 i), (Y1 z) in H2 by lia. apply asc_row. lia.
    + apply desc_range_iff; [lia|]. intros i z Hc1 Hzi Hi. destruct (H i z) as [H1 _]; [lia|lia|].
      rewrite peak_row in H1. rewrite (Y0 i), (Y0 z) in H1 by lia. apply desc_row. lia.
  - intros H. destruct (up_down_range_cut H) as (c & Hcn & Ha & Hd).
    exists (cut_y c), (Z.of_nat c). split; [now apply cut_change_point|].
    intros i z Hi Hz. rewrite peak_row, peak_row2.
    pose proof (row_bounds i ltac:(lia)). pose proof (row_bounds z ltac:(lia)). pose proof HM.
    assert (Gi : 0 <= M * (1 - X i i)) by (apply guard_nonneg; lia). assert (Gz : 0 <= M * (1 - X z z)) by (apply guard_nonneg; lia).
    unfold cut_y. destruct (Nat.ltb_spec i c) as [Hic|Hic]; destruct (Nat.ltb_spec z c) as [Hzc|Hzc]; try lia.
    + pose proof (proj2 (asc_range_iff 0 c Hcn) Ha i z ltac:(lia) ltac:(lia) ltac:(lia)) as G. rewrite asc_row in G. split; lia.
    + pose proof (proj2 (desc_range_iff c n ltac:(lia)) Hd i z ltac:(lia) ltac:(lia) ltac:(lia)) as G. rewrite desc_row in G. split; lia.
Qed.
Lemma valley_iff : (exists y t, change_point n y t /\ valley n D M y X) <-> up_down g_ge gs.
Proof.
  split.
  - intros (y & t & Hc & H). destruct (change_point_cut y t Hc) as (c & Hcn & Y1 & Y0).
    apply (range_cut_down_up c).
    + apply desc_range_iff; [lia|]. intros i z _ Hzi Hi. destruct (H i z) as [_ H2]; [lia|lia|].
      rewrite valley_row2 in H2. rewrite (Y1 i), (Y1 z) in H2 by lia. apply desc_row. lia.
    + apply asc_range_iff; [lia|]. intros i z Hc1 Hzi Hi. destruct (H i z) as [H1 _]; [lia|lia|].
      rewrite valley_row in H1. rewrite (Y0 i), (Y0 z) in H1 by lia. apply asc_row. lia.
  - intros H. destruct (down_up_range_cut H) as (c & Hcn & Ha & Hd).
    exists (cut_y c), (Z.of_nat c). split; [now apply cut_change_point|].
    intros i z Hi Hz. rewrite valley_row, valley_row2.
    pose proof (row_bounds i ltac:(lia)). pose proof (row_bounds z ltac:(lia)). pose proof HM.
    assert (Gi : 0 <= M * (1 - X i i)) by (apply guard_nonneg; lia). assert (Gz : 0 <= M * (1 - X z z)) by (apply guard_nonneg; lia).
    unfold cut_y. destruct (Nat.ltb_spec i c) as [Hic|Hic]; destruct (Nat.ltb_spec z c) as [Hzc|Hzc]; try lia.
    + pose proof (proj2 (desc_range_iff 0 c Hcn) Ha i z ltac:(lia) ltac:(lia) ltac:(lia)) as G. rewrite desc_row in G. split; lia.
    + pose proof (proj2 (asc_range_iff c n ltac:(lia)) Hd i z ltac:(lia) ltac:(lia) ltac:(lia)) as G. rewrite asc_row in G. split; lia.
Qed.

(** heuristics: the change happens at the given prebin [tc] *)
Lemma peak_heuristic_sound tc md0 : (tc <= n)%nat -> peak_heuristic n tc D M md0 X -> up_down g_le gs.
Proof.
  intros Htc (H1 & _ & H2 & _). apply (range_cut_up_down tc).
  - apply asc_range_iff; [lia|]. intros; apply H1; lia.
  - apply desc_range_iff; [lia|]. intros; apply H2; lia.
Qed.
Lemma valley_heuristic_sound tc md0 : (tc <= n)%nat -> valley_heuristic n tc D M md0 X -> up_down g_ge gs.
Proof.
  intros Htc (H1 & _ & H2 & _). apply (range_cut_down_up tc).
  - apply desc_range_iff; [lia|]. intros; apply H1; lia.
  - apply asc_range_iff; [lia|]. intros; apply H2; lia.
Qed.

(** concave / convex: every three groups *)
Definition triples (P : group -> group -> group -> Prop) : Prop := forall s1 e1 s2 e2 s3 e3,
  In (s1, e1) gs -> In (s2, e2) gs -> In (s3, e3) gs -> (e1 < e2)%nat -> (e2 < e3)%nat -> P (s1, e1) (s2, e2) (s3, e3).
Lemma concave_sound : concave n D M X ->
  triples (fun g1 g2 g3 => at_group D g1 + at_group D g3 <= 2 * at_group D g2).
Proof.
  intros H s1 e1 s2 e2 s3 e3 I1 I2 I3 H12 H23. unfold at_group. cbn [fst snd].
  pose proof (in_lt _ _ I3). specialize (H e3 e2 e1 ltac:(lia) ltac:(lia) ltac:(lia)).
  rewrite (row_rate_end n gs X Hp Hr D _ _ I1), (row_rate_end n gs X Hp Hr D _ _ I2), (row_rate_end n gs X Hp Hr D _ _ I3) in H.
  rewrite (diag1 n gs X Hp Hr _ _ I1), (diag1 n gs X Hp Hr _ _ I2), (diag1 n gs X Hp Hr _ _ I3) in H. lia.
Qed.
Lemma convex_sound : convex n D M X ->
  triples (fun g1 g2 g3 => 2 * at_group D g2 <= at_group D g1 + at_group D g3).
Proof.
  intros H s1 e1 s2 e2 s3 e3 I1 I2 I3 H12 H23. unfold at_group. cbn [fst snd].
  pose proof (in_lt _ _ I3). specialize (H e3 e2 e1 ltac:(lia) ltac:(lia) ltac:(lia)).
  rewrite (row_rate_end n gs X Hp Hr D _ _ I1), (row_rate_end n gs X Hp Hr D _ _ I2), (row_rate_end n gs X Hp Hr D _ _ I3) in H.
  rewrite (diag1 n gs X Hp Hr _ _ I1), (diag1 n gs X Hp Hr _ _ I2), (diag1 n gs X Hp Hr _ _ I3) in H. lia.
Qed.
End Rates.

(** violations *)
Definition valid_viol (v : viol) : Prop :=
  let '((i, j), (z, l)) := v in (j <= i)%nat /\ (i < l)%nat /\ (l <= z)%nat /\ (z < n)%nat.
Lemma group_in_iff s e : (s <= e)%nat -> (e < n)%nat ->
  (In (s, e) gs <-> X e s = 1 /\ (forall s', s = S s' -> X e s' = 0)).
Proof.
  intros Hse He. split.
  - intros Hin. split; [apply (X_in n gs X Hp Hr s e s Hin); lia|]. intros s' ->. apply (X_before n gs X Hp Hr (S s') e s' Hin). lia.
  - intros [H1 H2]. apply Hr in H1; [|lia|lia]. destruct H1 as (s0 & Hin & Hs0).
    destruct (Nat.eq_dec s0 s) as [->|Hne]; [exact Hin|]. destruct s as [|s']; [lia|].
    specialize (H2 s' eq_refl). rewrite (X_in n gs X Hp Hr s0 e s' Hin) in H2 by lia. lia.
Qed.
Lemma violation_iff v : valid_viol v ->
  violation_constr v X <-> ~ (let '((i, j), (z, l)) := v in In (j, i) gs /\ In (l, z) gs).
Proof.
  destruct v as [[i j] [z l]]. intros (H1 & H2 & H3 & H4). cbn [valid_viol violation_constr].
  rewrite (group_in_iff j i) by lia. rewrite (group_in_iff l z) by lia.
  destruct l as [|l']; [lia|]. replace (S l' - 1)%nat with l' by lia.
  destruct j as [|j'].
  - split.
    + intros H [[Ha _] [Hb Hc]]. specialize (H (Hc l' eq_refl) Ha). lia.
    + intros H Ha Hb. destruct (proj1 (Hr z (S l') ltac:(lia) ltac:(lia))) as [E|E]; [exact E|]. exfalso. apply H.
      split; [split; [exact Hb|intros; discriminate]|]. split; [exact E|]. intros s' Es. injection Es as <-. exact Ha.
  - split.
    + intros H [[Ha Ha'] [Hb Hc]]. specialize (H (Ha' j' eq_refl) (Hc l' eq_refl) Ha). lia.
    + intros H Ha Hb Hd. destruct (proj1 (Hr z (S l') ltac:(lia) ltac:(lia))) as [E|E]; [exact E|]. exfalso. apply H.
      split; [split; [exact Hd|intros s' Es; injection Es as <-; exact Ha]|]. split; [exact E|]. intros s' Es. injection Es as <-. exact Hb.
Qed.

Lemma viol_all_in m bad i r j k : In ((i, r), (j, k)) (viol_all m bad) <->
  (r <= i)%nat /\ (i < k)%nat /\ (k <= j)%nat /\ (j < m)%nat /\ bad i r j k = true.
Proof.
  unfold viol_all. rewrite in_flat_map. setoid_rewrite in_flat_map. setoid_rewrite in_flat_map. setoid_rewrite in_flat_map.
  split.
  - intros (i' & Hi & r' & Hr' & j' & Hj & k' & Hk & Hin). apply in_seq in Hi, Hr', Hj, Hk.
    destruct (bad i' r' j' k') eqn:E; [|destruct Hin]. destruct Hin as [Eq|[]]. injection Eq as <- <- <- <-.
    repeat split; try lia; try exact E.
  - intros (H1 & H2 & H3 & H4 & E). exists i. split; [apply in_seq; lia|]. exists r. split; [apply in_seq; lia|].
    exists j. split; [apply in_seq; lia|]. exists k. split; [apply in_seq; lia|]. rewrite E. now left.
Qed.
Lemma viol_consecutive_in m bad i r j k : In ((i, r), (j, k)) (viol_consecutive m bad) <->
  (r <= i)%nat /\ k = S i /\ (i < j)%nat /\ (j < m)%nat /\ bad i r j (S i) = true.
Proof.
  unfold viol_consecutive. rewrite in_flat_map. setoid_rewrite in_flat_map. setoid_rewrite in_flat_map.
  split.
  - intros (i' & Hi & r' & Hr' & j' & Hj & Hin). apply in_seq in Hi, Hr', Hj.
    destruct (bad i' r' j' (i' + 1)%nat) eqn:E; [|destruct Hin]. destruct Hin as [Eq|[]]. injection Eq as <- <- <- <-.
    repeat split; try lia. now replace (S i') with (i' + 1)%nat by lia.
  - intros (H1 & -> & H3 & H4 & E). exists i. split; [apply in_seq; lia|]. exists r. split; [apply in_seq; lia|].
    exists j. split; [apply in_seq; lia|]. replace (i + 1)%nat with (S i) by lia. rewrite E. now left.
Qed.

Lemma viol_all_iff bad : violation_constrs (viol_all n bad) X <->
  all_pairs (fun g1 g2 => bad (snd g1) (fst g1) (snd g2) (fst g2) = false) gs.
Proof.
  rewrite (chain_pairs _ _ _ _ Hp). cbn [fst snd]. unfold violation_constrs. split.
  - intros H s1 e1 s2 e2 I1 I2 Hlt. destruct (bad e1 s1 e2 s2) eqn:E; [|reflexivity]. exfalso.
    pose proof (in_lt _ _ I1). pose proof (in_lt _ _ I2).
    assert (e1 < s2)%nat.
    { destruct (Nat.lt_ge_cases e1 s2); [assumption|].
      destruct (chain_disj _ _ _ _ _ _ _ e1 Hp I1 I2); lia. }
    assert (Hv : In ((e1, s1), (e2, s2)) (viol_all n bad)) by (apply viol_all_in; repeat split; try lia; exact E).
    apply H in Hv. apply violation_iff in Hv; [apply Hv; now split|]. cbn. lia.
  - intros H [[i r] [j k]] Hin. apply viol_all_in in Hin. destruct Hin as (H1 & H2 & H3 & H4 & E).
    apply violation_iff; [cbn; lia|]. intros [Ha Hb]. rewrite (H r i k j Ha Hb) in E by lia. discriminate.
Qed.
Lemma viol_consecutive_iff bad : violation_constrs (viol_consecutive n bad) X <->
  neighbours (fun g1 g2 => bad (snd g1) (fst g1) (snd g2) (fst g2) = false) gs.
Proof.
  rewrite (chain_neighbours _ _ _ _ Hp). cbn [fst snd]. unfold violation_constrs. split.
  - intros H s1 e1 e2 I1 I2. destruct (bad e1 s1 e2 (S e1)) eqn:E; [|reflexivity]. exfalso.
    pose proof (in_lt _ _ I1). pose proof (in_lt _ _ I2).
    assert (Hv : In ((e1, s1), (e2, S e1)) (viol_consecutive n bad)) by (apply viol_consecutive_in; repeat split; try lia; exact E).
    apply H in Hv. apply violation_iff in Hv; [apply Hv; now split|]. cbn. lia.
  - intros H [[i r] [j k]] Hin. apply viol_consecutive_in in Hin. destruct Hin as (H1 & -> & H3 & H4 & E).
    apply violation_iff; [cbn; lia|]. intros [Ha Hb]. rewrite (H r i j Ha Hb) in E by lia. discriminate.
Qed.

Lemma fixed_iff fixed : fixed_splits n fixed X <->
  (forall f i, fixed = Some f -> (i < n - 1)%nat -> nth_error f i = Some true -> exists s, In (s, i) gs).
Proof.
  unfold fixed_splits. destruct fixed as [f|]; [|split; [discriminate|trivial]]. split.
  - intros H f' i E Hi Hf. injection E as <-. apply (diag_end n gs X Hp Hr); [lia|]. auto.
  - intros H i Hi Hf. apply (diag_end n gs X Hp Hr); [lia|]. eauto.
Qed.

Lemma objective_groups V : objective n V X = zsum (map (at_group V) gs).
Proof.
  unfold objective.
  rewrite (sum_range_ext 0 n _ (row_rate V X)).
  2:{ intros k Hk. unfold row_rate, tele. lia. }
  rewrite (sum_over_ends (row_rate V X) 0 n gs Hp).
  - apply zsum_map_ext. intros [s e] Hin. exact (row_rate_end n gs X Hp Hr V s e Hin).
  - intros i Hi Hno. apply (row_rate_other n gs X Hr); auto; lia.
Qed.

(** the solution vector marks exactly the group ends *)
Lemma sol_nth i : (i < n)%nat ->
  (nth_error (solution_vector n (Solved X)) i = Some true <-> exists s, In (s, i) gs).
Proof.
  intros Hi. cbn [solution_vector]. rewrite nth_error_map, (nth_error_nth' _ 0%nat) by (rewrite seq_length; lia).
  rewrite seq_nth by lia. cbn [option_map Nat.add]. rewrite <- (diag_end n gs X Hp Hr i Hi), <- Z.eqb_eq.
  split; [congruence|intros ->; reflexivity].
Qed.
End Constr.

