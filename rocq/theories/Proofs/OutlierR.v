From Coq Require Import List ZArith QArith Qabs Qround Lia Lqa Bool Arith Permutation Sorting.
From Verif Require Import Model.Arr Model.Core Model.Mdlp Model.Outlier Spec.CoreSpec Spec.OutlierSpec Proofs.ArrP Proofs.CoreP Proofs.MdlpP Proofs.OutlierP Proofs.OutlierQ.
Import ListNotations.
Open Scope Z_scope.

Lemma filter_perm {A} (p : A -> bool) l l' : Permutation l l' -> length (filter p l) = length (filter p l').
Proof. induction 1; cbn; try lia; repeat (destruct (p _)); cbn; lia. Qed.
Lemma filter_le {A} (p q : A -> bool) l : (forall x, In x l -> p x = true -> q x = true) -> (length (filter p l) <= length (filter q l))%nat.
Proof.
  induction l as [|a r IH]; intros H; [cbn; lia|]. cbn. specialize (IH (fun x Hx => H x (or_intror Hx))). pose proof (H a (or_introl eq_refl)) as Ha.
  destruct (p a); [rewrite Ha by reflexivity; cbn; lia|destruct (q a); cbn; lia].
Qed.
Lemma filter_or {A} (p q : A -> bool) l : (length (filter (fun x => p x || q x) l) <= length (filter p l) + length (filter q l))%nat.
Proof. induction l as [|a r IH]; cbn; [lia|]. destruct (p a), (q a); cbn; lia. Qed.
(** at most [i] elements of a sorted list satisfy a test that fails from position [i] on *)
Lemma filter_prefix (p : Z -> bool) s : forall i, (forall k, (i <= k)%nat -> (k < length s)%nat -> p (nth k s 0) = false) -> (length (filter p s) <= i)%nat.
Proof.
  induction s as [|a r IH]; intros i H; [cbn; lia|]. destruct i as [|i].
  - pose proof (H 0%nat ltac:(lia) ltac:(cbn; lia)) as H0. cbn [nth] in H0. cbn [filter]. rewrite H0. apply IH. intros k _ Hk. apply (H (S k)); cbn; lia.
  - cbn [filter]. assert (G : (length (filter p r) <= i)%nat) by (apply IH; intros k Hk Hk'; apply (H (S k)); cbn; lia). destruct (p a); cbn; lia.
Qed.
Lemma filter_suffix (p : Z -> bool) s : forall i, (forall k, (k < i)%nat -> (k < length s)%nat -> p (nth k s 0) = false) -> (length (filter p s) <= length s - i)%nat.
Proof.
  induction s as [|a r IH]; intros i H; [cbn; lia|]. destruct i as [|i].
  - rewrite Nat.sub_0_r. clear. induction (a :: r) as [|x l IH]; cbn; [lia|]. destruct (p x); cbn; lia.
  - pose proof (H 0%nat ltac:(lia) ltac:(cbn; lia)) as H0. cbn [nth] in H0. cbn [filter]. rewrite H0. cbn [length]. rewrite Nat.sub_succ. apply IH. intros k Hk Hk'. apply (H (S k)); cbn; lia.
Qed.

(** ** how many samples are flagged *)
Definition below (v : Q) (x : Z) : bool := negb (Qle_bool v (inject_Z x)).
Definition above (v : Q) (x : Z) : bool := negb (Qle_bool (inject_Z x) v).
Lemma below_false v x : (v <= inject_Z x)%Q -> below v x = false.
Proof. intros H. unfold below. apply Qle_bool_iff in H. now rewrite H. Qed.
Lemma above_false v x : (inject_Z x <= v)%Q -> above v x = false.
Proof. intros H. unfold above. apply Qle_bool_iff in H. now rewrite H. Qed.
(** at most h samples lie below, and at most (n - 1) - h above, the value at position h (rounded up) *)
Lemma quantile_between xs q : xs <> [] -> (0 <= q)%Q -> (q <= 1)%Q ->
  let n := length xs in let s := np_sort xs in let h := (q * (zq n - 1))%Q in
  (forall k, (h <= zq k)%Q -> (k < n)%nat -> (quantile xs q <= inject_Z (nth k s 0%Z))%Q) /\
  (forall k, (zq k <= h)%Q -> (inject_Z (nth k s 0%Z) <= quantile xs q)%Q).
Proof.
  intros Hne H0 H1 n s h. assert (Hn : (0 < n)%nat) by (unfold n; destruct xs; [congruence|cbn; lia]).
  destruct (pos_spec q n H0 H1 Hn) as (Eh & Ei & L & U & B). fold h in Eh.
  unfold quantile. fold n s. set (g := (q * inject_Z (Z.of_nat n - 1))%Q) in *. set (i := Z.to_nat (Qfloor g)) in *. set (a := nth i s 0).
  set (b := nth (S i) s a). assert (Hs : length s = n) by apply np_sort_length. pose proof (np_sort_sorted xs) as Hsort. fold s in Hsort.
  rewrite Ei. assert (Hab : (0 <= inject_Z (b - a))%Q).
  { change 0%Q with (inject_Z 0). rewrite <- Zle_Qle. destruct (Nat.lt_ge_cases (S i) n).
    - assert (nth i s a <= nth (S i) s a) by (apply sorted_nth; [exact Hsort|lia|lia]). unfold b. assert (nth i s a = a) by (unfold a; apply nth_indep; lia). lia.
    - unfold b. rewrite nth_overflow by lia. lia. }
  assert (Ha : forall k, (k <= i)%nat -> (inject_Z (nth k s 0%Z) <= inject_Z a)%Q) by (intros k Hk; rewrite <- Zle_Qle; unfold a; apply sorted_nth; [exact Hsort|lia|lia]).
  split.
  - intros k Hk Hkn. destruct (Nat.eq_dec k i) as [->|Hki].
    + fold a. assert (g == zq i) by (rewrite <- Eh in Hk; lra). assert (E : (inject_Z a + (g - zq i) * inject_Z (b - a) == inject_Z a)%Q) by (rewrite H; ring). rewrite E. lra.
    + assert (i < k)%nat. { assert (zq i <= zq k)%Q by (rewrite <- Eh in Hk; lra). apply zq_le in H. lia. }
      assert (Hb : (inject_Z b <= inject_Z (nth k s 0%Z))%Q).
      { rewrite <- Zle_Qle. unfold b. rewrite (nth_indep s a 0) by lia. apply sorted_nth; [exact Hsort|lia|lia]. }
      eapply Qle_trans; [|exact Hb]. assert (Eb : (inject_Z b == inject_Z a + inject_Z (b - a))%Q) by (unfold Z.sub; rewrite inject_Z_plus, inject_Z_opp; ring).
      rewrite Eb. assert (0 <= g - zq i <= 1)%Q by (split; lra). nra.
  - intros k Hk. assert (k <= i)%nat.
    { assert (zq k < zq (S i))%Q by (rewrite zq_S; rewrite <- Eh in Hk; lra). apply zq_lt in H. lia. }
    eapply Qle_trans; [apply Ha; lia|]. assert (0 <= (g - zq i) * inject_Z (b - a))%Q by (apply Qmult_le_0_compat; lra). lra.
Qed.
Lemma quantile_mono xs q q' : xs <> [] -> (0 <= q)%Q -> (q <= q')%Q -> (q' <= 1)%Q -> (quantile xs q <= quantile xs q')%Q.
Proof.
  intros Hne H0 Hqq H1. set (n := length xs). assert (Hn : (0 < n)%nat) by (unfold n; destruct xs; [congruence|cbn; lia]).
  destruct (pos_spec q n H0 ltac:(lra) Hn) as (Eh & Ei & L & U & B). destruct (pos_spec q' n ltac:(lra) H1 Hn) as (Eh' & Ei' & L' & U' & B').
  set (g := (q * inject_Z (Z.of_nat n - 1))%Q) in *. set (g' := (q' * inject_Z (Z.of_nat n - 1))%Q) in *.
  set (i := Z.to_nat (Qfloor g)) in *. set (i' := Z.to_nat (Qfloor g')) in *.
  assert (Hz : (0 <= zq n - 1)%Q) by (assert (zq 1 <= zq n)%Q by (apply zq_le; lia); change (zq 1) with 1%Q in H; lra).
  assert (Hg : (g <= g')%Q) by (rewrite Eh, Eh'; apply Qmult_le_compat_r; assumption).
  destruct (quantile_between xs q Hne H0 ltac:(lra)) as [Q1 _]. destruct (quantile_between xs q' Hne ltac:(lra) H1) as [_ Q2]. fold n in Q1, Q2.
  destruct (Nat.eq_dec i i') as [E|E].
  - unfold quantile. fold n g g'. fold i i'. rewrite Ei, Ei', <- E. set (s := np_sort xs). set (a := nth i s 0). set (b := nth (S i) s a).
    assert (Hs : length s = n) by apply np_sort_length. pose proof (np_sort_sorted xs) as Hsort. fold s in Hsort.
    assert (Hab : (0 <= inject_Z (b - a))%Q).
    { change 0%Q with (inject_Z 0). rewrite <- Zle_Qle. destruct (Nat.lt_ge_cases (S i) n).
      - assert (nth i s a <= nth (S i) s a) by (apply sorted_nth; [exact Hsort|lia|lia]). unfold b. assert (nth i s a = a) by (unfold a; apply nth_indep; lia). lia.
      - unfold b. rewrite nth_overflow by lia. lia. }
    assert ((g - zq i) * inject_Z (b - a) <= (g' - zq i) * inject_Z (b - a))%Q by (apply Qmult_le_compat_r; lra). lra.
  - assert (i < i')%nat. { assert (zq i < zq (S i'))%Q by (rewrite zq_S; lra). apply zq_lt in H. lia. }
    eapply Qle_trans; [apply (Q1 (S i)); [rewrite <- Eh, zq_S; lra|lia]|].
    apply Q2. rewrite <- Eh'. eapply Qle_trans; [apply zq_le; exact H|exact L'].
Qed.
Lemma iqr_nonneg p xs lb ub : xs <> [] -> (0 <= r_length p)%Q -> (r_length p <= 1)%Q -> interval p xs = Ok (lb, ub) -> (lb <= ub)%Q.
Proof.
  intros Hne H0 H1 Hi. destruct (half_bounds _ H0 H1) as (A & B & C & D). pose proof (interval_ok p xs lb ub H0 H1 Hne Hi) as Hc. unfold interval in Hi. unfold credible_interval in Hc. destruct (r_method p).
  - injection Hi as <- <-. apply quantile_mono; try assumption. assert (E : forall x, (x / 2 == x * (1 # 2))%Q) by (intros; reflexivity). rewrite !E. lra.
  - destruct Hc as (s & k & j & HP & Hs & _ & _ & Hjk & -> & -> & _). rewrite <- Zle_Qle. apply sorted_nth; [exact Hs|lia|]. now rewrite <- (Permutation_length HP).
Qed.
Lemma flag_outside p lb ub x : (0 <= r_k p)%Q -> (lb <= ub)%Q -> range_flag p lb ub x = true -> (below lb x || above ub x = true)%Q.
Proof.
  intros Hk Hlu H. apply range_flag_iff in H. unfold range_outlier in H. assert (0 <= r_k p * (ub - lb))%Q by (apply Qmult_le_0_compat; lra).
  apply orb_true_iff. unfold below, above. rewrite !nle_lt. destruct H; [left|right]; lra.
Qed.
Lemma eti_count p xs m K : r_method p = ETI -> (0 <= r_k p)%Q -> xs <> [] -> range_fit p xs = Ok m ->
  ((1 - r_length p) * (zq (length xs) - 1) <= 2 * zq K)%Q -> (count_true m <= 2 * K)%nat.
Proof.
  intros Em Hk Hne Hm HK. destruct (range_fit_inv p xs m Hm) as (H0 & H1 & lb & ub & Hi & ->). pose proof (iqr_nonneg p xs lb ub Hne H0 H1 Hi) as Hlu.
  rewrite count_true_map_filter. unfold interval in Hi. rewrite Em in Hi. injection Hi as El Eu. destruct (half_bounds _ H0 H1) as (A & B & C & D).
  set (n := length xs) in *. set (s := np_sort xs). assert (Hs : length s = n) by apply np_sort_length.
  assert (HP : Permutation xs s) by (apply Permutation_sym, np_sort_perm).
  eapply Nat.le_trans; [apply (filter_le _ (fun x => below lb x || above ub x)); intros x _; now apply flag_outside|].
  eapply Nat.le_trans; [apply filter_or|]. rewrite (filter_perm (below lb) _ _ HP), (filter_perm (above ub) _ _ HP).
  destruct (quantile_between xs _ Hne A B) as [Q1 _]. destruct (quantile_between xs _ Hne C D) as [_ Q2]. fold n s in Q1, Q2. rewrite El in Q1. rewrite Eu in Q2.
  assert (G1 : (length (filter (below lb) s) <= K)%nat).
  { apply filter_prefix. intros k Hk1 Hk2. apply below_false, Q1; [|lia]. apply zq_le in Hk1. eapply Qle_trans; [|exact Hk1].
    assert (E : (((1 - r_length p) / 2) * (zq n - 1) == ((1 - r_length p) * (zq n - 1)) / 2)%Q) by field. rewrite E.
    apply Qle_shift_div_r; [reflexivity|]. rewrite (Qmult_comm (zq K)). exact HK. }
  assert (G2 : (length (filter (above ub) s) <= K)%nat).
  { eapply Nat.le_trans; [apply (filter_suffix _ _ (n - K))|lia]. intros k Hk1 Hk2. apply above_false, Q2.
    assert (E : (((1 + r_length p) / 2) * (zq n - 1) == (zq n - 1) - ((1 - r_length p) * (zq n - 1)) / 2)%Q) by field. rewrite E.
    assert (((1 - r_length p) * (zq n - 1)) / 2 <= zq K)%Q by (apply Qle_shift_div_r; [reflexivity|]; rewrite (Qmult_comm (zq K)); exact HK).
    assert (zq (S k + K) <= zq n)%Q by (apply zq_le; lia). assert (E2 : (zq (S k + K) == zq k + 1 + zq K)%Q).
    { cbn [Nat.add]. rewrite zq_S. unfold zq. rewrite Nat2Z.inj_add, inject_Z_plus. ring. } lra. }
  lia.
Qed.
Lemma hdi_count p xs m : r_method p = HDI -> (0 <= r_k p)%Q -> xs <> [] -> range_fit p xs = Ok m ->
  (zq (count_true m) + r_length p * zq (length xs) + 1 <= zq (length xs))%Q.
Proof.
  intros Em Hk Hne Hm. destruct (range_fit_inv p xs m Hm) as (H0 & H1 & lb & ub & Hi & ->). pose proof (iqr_nonneg p xs lb ub Hne H0 H1 Hi) as Hlu.
  rewrite count_true_map_filter. unfold interval in Hi. rewrite Em in Hi. apply hdi_ok in Hi; [|exact H0].
  destruct Hi as (s & k & j & HP & Hs & K1 & K2 & Hjk & El & Eu & _). pose proof (Permutation_length HP) as Hl.
  assert (G : (length (filter (range_flag p lb ub) xs) + k + 1 <= length xs)%nat).
  { rewrite (filter_perm _ _ _ HP). eapply Nat.le_trans; [|rewrite Hl; apply Nat.le_refl].
    assert (G1 : (length (filter (below lb) s) <= j)%nat).
    { apply filter_prefix. intros i Hi Hi'. apply below_false. rewrite El, <- Zle_Qle. apply sorted_nth; [exact Hs|lia|lia]. }
    assert (G2 : (length (filter (above ub) s) <= length s - S (j + k))%nat).
    { apply filter_suffix. intros i Hi Hi'. apply above_false. rewrite Eu, <- Zle_Qle. apply sorted_nth; [exact Hs|lia|lia]. }
    pose proof (filter_or (below lb) (above ub) s).
    assert (length (filter (range_flag p lb ub) s) <= length (filter (fun x => below lb x || above ub x) s))%nat by (apply filter_le; intros x _; now apply flag_outside). lia. }
  apply zq_le in G. assert (E : (zq (length (filter (range_flag p lb ub) xs) + k + 1) == zq (length (filter (range_flag p lb ub) xs)) + zq k + 1)%Q).
  { unfold zq. rewrite !Nat2Z.inj_add, !inject_Z_plus. reflexivity. } lra.
Qed.

(** ** z-score *)
Lemma count_above s i : nondecreasing s -> (i < length s)%nat -> (length (filter (fun x => (nth i s 0 <? x)%Z) s) <= length s - S i)%nat.
Proof. intros Hs Hi. apply filter_suffix. intros k Hk Hk'. apply Z.ltb_ge. apply sorted_nth; [exact Hs|lia|lia]. Qed.
Lemma count_below s i : nondecreasing s -> (i < length s)%nat -> (length (filter (fun x => (x <? nth i s 0)%Z) s) <= i)%nat.
Proof. intros Hs Hi. apply filter_prefix. intros k Hk Hk'. apply Z.ltb_ge. apply sorted_nth; [exact Hs|lia|lia]. Qed.
Lemma div2_facts n : (0 < n)%nat -> let i := Nat.div (n - 1) 2 in let j := Nat.div n 2 in
  (i <= j)%nat /\ (j < n)%nat /\ (2 * i <= n)%nat /\ (2 * j <= n)%nat /\ (2 * (n - S i) <= n)%nat /\ (2 * (n - S j) <= n)%nat.
Proof.
  intros Hn i j. pose proof (Nat.div_mod (n - 1) 2 ltac:(lia)). pose proof (Nat.mod_upper_bound (n - 1) 2 ltac:(lia)).
  pose proof (Nat.div_mod n 2 ltac:(lia)). pose proof (Nat.mod_upper_bound n 2 ltac:(lia)). unfold i, j. lia.
Qed.
Lemma dev2_nonneg xs x : 0 <= dev2 xs x. Proof. apply Z.abs_nonneg. Qed.
Lemma mad4_nonneg xs : 0 <= mad4 xs.
Proof.
  unfold mad4, median2. set (s := np_sort _). assert (G : forall i, 0 <= nth i s 0).
  { intros i. destruct (Nat.lt_ge_cases i (length s)) as [H|H]; [|rewrite nth_overflow by lia; lia].
    assert (Hin : In (nth i s 0) (map (dev2 xs) xs)) by (eapply Permutation_in; [apply np_sort_perm|now apply nth_In]).
    apply in_map_iff in Hin as (x & <- & _). apply dev2_nonneg. }
  pose proof (G (Nat.div (length (map (dev2 xs) xs) - 1) 2)). pose proof (G (Nat.div (length (map (dev2 xs) xs)) 2)). lia.
Qed.
Lemma zscore_half t xs m : ((6745 # 10000) <= t)%Q -> zscore_fit t xs = Ok m -> (2 * count_true m <= length xs)%nat.
Proof.
  intros Ht H. destruct (zscore_fit_inv t xs m H) as (_ & ->). rewrite count_true_map_filter.
  destruct xs as [|x0 xr]; [cbn; lia|]. set (xs := x0 :: xr). assert (Hn : (0 < length xs)%nat) by (cbn; lia).
  set (d := map (dev2 xs) xs). set (s := np_sort d). assert (Hs : length s = length xs) by (unfold s; rewrite np_sort_length; apply map_length).
  destruct (div2_facts (length xs) Hn) as (F1 & F2 & F3 & F4 & F5 & F6). set (i := Nat.div (length xs - 1) 2) in *. set (j := Nat.div (length xs) 2) in *.
  assert (Hsort : nondecreasing s) by apply np_sort_sorted.
  assert (Hm : 2 * nth i s 0 <= mad4 xs).
  { unfold mad4, median2. fold d s. replace (length d) with (length xs) by (unfold d; now rewrite map_length). fold i j.
    pose proof (sorted_nth s i j 0 Hsort F1 ltac:(lia)). lia. }
  assert (G : (length (filter (z_flag t xs) xs) <= length (filter (fun x => (nth i s 0 <? x)%Z) d))%nat).
  { unfold d. rewrite <- (map_length (dev2 xs) (filter (z_flag t xs) xs)).
    assert (E : forall l, length (filter (fun x => (nth i s 0 <? x)%Z) (map (dev2 xs) l)) = length (filter (fun x => (nth i s 0 <? dev2 xs x)%Z) l)).
    { induction l as [|x l IH]; [reflexivity|]. cbn [map filter]. destruct (nth i s 0 <? dev2 xs x)%Z; cbn [length]; now rewrite IH. }
    rewrite map_length. etransitivity; [|apply Nat.eq_le_incl; symmetry; apply (E xs)]. apply filter_le. intros x _ Hx. apply Z.ltb_lt.
    unfold z_flag in Hx. pose proof (mad4_nonneg xs). pose proof (dev2_nonneg xs x). destruct (Z.eqb_spec (mad4 xs) 0) as [E0|E0].
    - apply negb_true_iff, Z.eqb_neq in Hx. lia.
    - apply nle_lt in Hx. assert (Hpos : (0 < inject_Z (mad4 xs))%Q) by (change 0%Q with (inject_Z 0); rewrite <- Zlt_Qlt; lia).
      assert (Hq : ((6745 # 10000) * inject_Z (mad4 xs) < (6745 # 10000) * inject_Z (2 * dev2 xs x))%Q).
      { assert (Hlt : ((6745 # 10000) < (6745 # 10000) * inject_Z (2 * dev2 xs x) / inject_Z (mad4 xs))%Q) by lra.
        apply (Qmult_lt_r _ _ _ Hpos) in Hlt.
        setoid_replace ((6745 # 10000) * inject_Z (2 * dev2 xs x) / inject_Z (mad4 xs) * inject_Z (mad4 xs))%Q with ((6745 # 10000) * inject_Z (2 * dev2 xs x))%Q in Hlt; [exact Hlt|field; lra]. }
      apply Qmult_lt_l in Hq; [|reflexivity]. rewrite <- Zlt_Qlt in Hq. lia. }
  assert (HP : Permutation d s) by (apply Permutation_sym, np_sort_perm). rewrite (filter_perm _ _ _ HP) in G.
  pose proof (count_above s i Hsort ltac:(lia)). lia.
Qed.
(** a value held by more than half of the samples is the median, and the median deviation is 0 *)
Lemma middle_majority s c i : nondecreasing s -> (i < length s)%nat -> (2 * i <= length s)%nat -> (2 * (length s - S i) <= length s)%nat ->
  (length s < 2 * length (filter (Z.eqb c) s))%nat -> nth i s 0 = c.
Proof.
  intros Hs Hi H1 H2 Hc. pose proof (count_above s i Hs Hi). pose proof (count_below s i Hs Hi).
  destruct (Z.lt_trichotomy (nth i s 0) c) as [H'|[H'|H']]; [exfalso|exact H'|exfalso].
  - assert (length (filter (Z.eqb c) s) <= length (filter (fun x => (nth i s 0 <? x)%Z) s))%nat by (apply filter_le; intros x _ Hx; apply Z.eqb_eq in Hx; apply Z.ltb_lt; lia). lia.
  - assert (length (filter (Z.eqb c) s) <= length (filter (fun x => (x <? nth i s 0)%Z) s))%nat by (apply filter_le; intros x _ Hx; apply Z.eqb_eq in Hx; apply Z.ltb_lt; lia). lia.
Qed.
Lemma median_majority l c : (length l < 2 * length (filter (Z.eqb c) l))%nat -> median2 l = 2 * c.
Proof.
  intros Hc. assert (Hn : (0 < length l)%nat) by (destruct l; cbn in *; lia). destruct (div2_facts (length l) Hn) as (F1 & F2 & F3 & F4 & F5 & F6).
  unfold median2. set (s := np_sort l). assert (HP : Permutation l s) by (apply Permutation_sym, np_sort_perm). pose proof (Permutation_length HP) as Hl.
  rewrite (filter_perm _ _ _ HP) in Hc. rewrite !(middle_majority s c); try (apply np_sort_sorted); try lia.
Qed.
Lemma zscore_majority t xs m c : zscore_fit t xs = Ok m -> (length xs < 2 * length (filter (Z.eqb c) xs))%nat ->
  m = map (fun x => negb (x =? c)) xs.
Proof.
  intros H Hc. destruct (zscore_fit_inv t xs m H) as (_ & ->). pose proof (median_majority xs c Hc) as Em.
  assert (Ed : forall x, dev2 xs x = Z.abs (2 * x - 2 * c)) by (intros x; unfold dev2; now rewrite Em).
  assert (E4 : mad4 xs = 0).
  { unfold mad4. rewrite (median_majority _ 0); [reflexivity|]. rewrite map_length.
    assert (G : forall l, (length (filter (Z.eqb c) l) <= length (filter (Z.eqb 0) (map (dev2 xs) l)))%nat).
    { induction l as [|x r IH]; [cbn; lia|]. cbn [map filter]. rewrite Ed. destruct (Z.eqb_spec c x) as [->|Hx].
      - rewrite Z.sub_diag. cbn [Z.abs Z.eqb length]. lia.
      - destruct (0 =? Z.abs (2 * x - 2 * c)); cbn [length]; lia. }
    specialize (G xs). lia. }
  apply map_ext. intros x. unfold z_flag. rewrite E4, Z.eqb_refl, Ed. f_equal.
  destruct (Z.eqb_spec (Z.abs (2 * x - 2 * c)) 0), (Z.eqb_spec x c); try reflexivity; lia.
Qed.
