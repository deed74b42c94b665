From Coq Require Import List ZArith QArith Qabs Qround Lia Lqa Bool Arith Permutation Sorting.
From Verif Require Import Model.Arr Model.Core Model.Mdlp Model.Outlier Model.Unsup Spec.CoreSpec Spec.OutlierSpec Spec.UnsupSpec
  Proofs.ArrP Proofs.CoreP Proofs.OutlierP Proofs.OutlierR Proofs.OutlierS.
Import ListNotations.
Open Scope Q_scope.

(** ** minimum and maximum *)
Lemma fold_min_spec d l : (forall x, In x l -> fold_right Z.min d l <= x)%Z /\ (fold_right Z.min d l <= d)%Z /\ (In (fold_right Z.min d l) l \/ fold_right Z.min d l = d).
Proof.
  induction l as [|a r (I1 & I2 & I3)]; cbn [fold_right]; [split; [intros x []|]; split; [lia|now right]|]. set (m := fold_right Z.min d r) in *.
  split; [intros x [->|H]; [lia|specialize (I1 x H); lia]|]. split; [lia|]. destruct (Z.min_spec a m) as [[_ ->]|[_ ->]]; [left; now left|]. destruct I3 as [I3|I3]; [left; now right|now right].
Qed.
Lemma fold_max_spec d l : (forall x, In x l -> x <= fold_right Z.max d l)%Z /\ (d <= fold_right Z.max d l)%Z /\ (In (fold_right Z.max d l) l \/ fold_right Z.max d l = d).
Proof.
  induction l as [|a r (I1 & I2 & I3)]; cbn [fold_right]; [split; [intros x []|]; split; [lia|now right]|]. set (m := fold_right Z.max d r) in *.
  split; [intros x [->|H]; [lia|specialize (I1 x H); lia]|]. split; [lia|]. destruct (Z.max_spec a m) as [[_ ->]|[_ ->]]; [|left; now left]. destruct I3 as [I3|I3]; [left; now right|now right].
Qed.
Lemma col_min_least xs : xs <> [] -> least (col_min xs) xs.
Proof. intros H. destruct (fold_min_spec (hd 0%Z xs) xs) as (A & B & C). split; [|exact A]. destruct C as [C|C]; [exact C|]. unfold col_min. rewrite C. destruct xs; [congruence|now left]. Qed.
Lemma col_max_greatest xs : xs <> [] -> greatest (col_max xs) xs.
Proof. intros H. destruct (fold_max_spec (hd 0%Z xs) xs) as (A & B & C). split; [|exact A]. destruct C as [C|C]; [exact C|]. unfold col_max. rewrite C. destruct xs; [congruence|now left]. Qed.
Lemma least_eq lo lo' xs : least lo xs -> least lo' xs -> lo = lo'.
Proof. intros [A B] [C D]. specialize (B _ C). specialize (D _ A). lia. Qed.
Lemma greatest_eq lo lo' xs : greatest lo xs -> greatest lo' xs -> lo = lo'.
Proof. intros [A B] [C D]. specialize (B _ C). specialize (D _ A). lia. Qed.
Lemma perm_nil (xs xs' : list Z) : Permutation xs xs' -> xs <> [] -> xs' <> [].
Proof. intros P H ->. apply H. now apply Permutation_nil, Permutation_sym. Qed.

(** ** the two ways of keeping edges *)
Lemma wide_from_spec tol p l : 0 <= tol -> StronglySorted Qle (p :: l) -> StronglySorted Qlt (p :: wide_from tol p l) /\ incl (wide_from tol p l) l.
Proof.
  intros Ht. revert p. induction l as [|e r IH]; intros p H; [split; [repeat constructor|intros x []]|].
  inversion H as [|? ? H1 H2]. subst. destruct (IH e H1) as [I1 I2]. rewrite Forall_forall in H2. cbn [wide_from].
  inversion I1 as [|? ? I3 I4]. subst. rewrite Forall_forall in I4. destruct (Qle_bool (e - p) tol) eqn:E.
  - split; [|intros x Hx; right; now apply I2]. constructor; [exact I3|]. rewrite Forall_forall. intros x Hx. eapply Qle_lt_trans; [apply H2; now left|now apply I4].
  - assert (L : p < e). { assert (~ e - p <= tol) by (intros G; apply Qle_bool_iff in G; congruence). lra. }
    split; [|intros x [->|Hx]; [now left|right; now apply I2]]. constructor; [exact I1|]. rewrite Forall_forall. intros x [<-|Hx]; [exact L|]. eapply Qlt_trans; [exact L|now apply I4].
Qed.
Lemma drop_narrow_spec tol l : 0 <= tol -> StronglySorted Qle l -> StronglySorted Qlt (drop_narrow tol l) /\ incl (drop_narrow tol l) l /\ (length (drop_narrow tol l) <= length l)%nat.
Proof.
  intros Ht H. destruct l as [|e r]; [split; [constructor|]; split; [intros x []|cbn; lia]|]. destruct (wide_from_spec tol e r Ht H) as [A B]. cbn [drop_narrow]. split; [exact A|]. split.
  - intros x [->|Hx]; [now left|right; now apply B].
  - cbn [length]. apply le_n_S. clear. revert e. induction r as [|a r IH]; intros e; cbn [wide_from length]; [lia|]. specialize (IH a). destruct (Qle_bool _ _); cbn [length]; lia.
Qed.
Lemma wide_from_all tol p l : (forall i a b, nth_error (p :: l) i = Some a -> nth_error (p :: l) (S i) = Some b -> tol < b - a) -> wide_from tol p l = l.
Proof.
  revert p. induction l as [|e r IH]; intros p H; [reflexivity|]. cbn [wide_from]. destruct (Qle_bool (e - p) tol) eqn:E.
  - exfalso. apply Qle_bool_iff in E. specialize (H 0%nat p e eq_refl eq_refl). lra.
  - f_equal. apply IH. intros i a b Ha Hb. now apply (H (S i)).
Qed.
Lemma inner_spec (l : list Q) : StronglySorted Qlt l -> inner l <> [] -> exists a z, In a l /\ In z l /\ (forall v, In v (inner l) -> In v l /\ a < v /\ v < z).
Proof.
  unfold inner. destruct l as [|a t]; cbn [tl]; [cbn; congruence|]. intros H Hn. assert (Ht : t <> []) by (intros ->; now apply Hn).
  destruct (exists_last Ht) as (w & z & ->). rewrite removelast_last in *. inversion H as [|? ? H1 H2]. subst. rewrite Forall_forall in H2. destruct (sorted_app_lt w z H1) as [_ L].
  exists a, z. split; [now left|]. split; [right; apply in_or_app; right; now left|]. intros v Hv. split; [right; apply in_or_app; now left|]. split; [apply H2, in_or_app; now left|now apply L].
Qed.
Lemma inner_sorted (l : list Q) : StronglySorted Qlt l -> StronglySorted Qlt (inner l).
Proof.
  unfold inner. destruct l as [|a t]; cbn [tl]; [constructor|]. intros H. inversion H as [|? ? H1 _]. subst. destruct t as [|b t]; [constructor|].
  assert (Ht : b :: t <> []) by discriminate. destruct (exists_last Ht) as (w & z & E). rewrite E in *. rewrite removelast_last. now apply (sorted_app_lt w z).
Qed.
Lemma inner_length {A} (l : list A) : length (removelast (tl l)) = (length l - 2)%nat.
Proof. destruct l as [|a t]; [reflexivity|]. cbn [tl length]. destruct t as [|b t]; [reflexivity|]. assert (H : b :: t <> []) by discriminate. destruct (exists_last H) as (w & z & ->). rewrite removelast_last, app_length. cbn [length]. lia. Qed.
Lemma inner_nth {A} (l : list A) i : (i + 2 < length l)%nat -> nth_error (removelast (tl l)) i = nth_error l (S i).
Proof.
  destruct l as [|a t]; cbn [tl length]; [lia|]. intros H. destruct t as [|b t]; [cbn in H; lia|]. assert (Ht : b :: t <> []) by discriminate. destruct (exists_last Ht) as (w & z & E). rewrite E in *.
  rewrite removelast_last. cbn [nth_error]. rewrite app_length in H. cbn [length] in H. rewrite nth_error_app1 by lia. reflexivity.
Qed.

(** ** the edges *)
Lemma linspace_length n : length (linspace01 n) = S n.
Proof. unfold linspace01. now rewrite map_length, seq_length. Qed.
Lemma inj_minus a b : inject_Z (a - b) == inject_Z a - inject_Z b.
Proof. unfold Z.sub, Qminus. now rewrite inject_Z_plus, inject_Z_opp. Qed.
Lemma uniform_nth n lo hi i v : nth_error (uniform_edges n lo hi) i = Some v -> (i <= n)%nat /\ v == inject_Z lo + zq i / zq n * (inject_Z hi - inject_Z lo).
Proof.
  intros H. assert (L : (i <= n)%nat). { assert (G : nth_error (uniform_edges n lo hi) i <> None) by congruence. apply nth_error_Some in G. unfold uniform_edges in G. rewrite map_length, linspace_length in G. lia. }
  split; [exact L|]. unfold uniform_edges in H. rewrite nth_error_map, linspace_nth in H by exact L. injection H as <-. rewrite inj_minus. reflexivity.
Qed.
Lemma sorted_lt_seq (g : nat -> Q) : forall k a, (forall i j, (a <= i)%nat -> (i < j)%nat -> (j < a + k)%nat -> g i < g j) -> StronglySorted Qlt (map g (seq a k)).
Proof.
  induction k as [|k IH]; intros a H; cbn; constructor.
  - apply IH. intros i j H1 H2 H3. apply H; lia.
  - rewrite Forall_forall. intros x Hx. apply in_map_iff in Hx as (j & <- & Hj). apply in_seq in Hj. apply H; lia.
Qed.
Lemma ratio_lt i j n : (0 < n)%nat -> (i < j)%nat -> zq i / zq n < zq j / zq n.
Proof.
  intros Hn Hi. assert (Hp : 0 < zq n) by (change 0 with (zq 0); apply zq_lt; lia). apply Qlt_shift_div_l; [exact Hp|].
  setoid_replace (zq i / zq n * zq n) with (zq i) by (field; lra). now apply zq_lt.
Qed.
Lemma uniform_sorted n lo hi : (0 < n)%nat -> (lo < hi)%Z -> StronglySorted Qlt (uniform_edges n lo hi).
Proof.
  intros Hn H. unfold uniform_edges, linspace01. rewrite map_map. apply sorted_lt_seq. intros i j _ L _. fold (zq i) (zq j) (zq n). pose proof (ratio_lt i j n Hn L) as R.
  assert (0 < inject_Z (hi - lo)) by (change 0 with (inject_Z 0); rewrite <- Zlt_Qlt; lia). nra.
Qed.
Lemma uniform_range n lo hi v : (0 < n)%nat -> (lo < hi)%Z -> In v (uniform_edges n lo hi) -> inject_Z lo <= v /\ v <= inject_Z hi.
Proof.
  intros Hn H Hv. apply In_nth_error in Hv as (i & Hi). apply uniform_nth in Hi as [L E]. destruct (ratio_bounds i n Hn L) as [R1 R2].
  assert (inject_Z lo < inject_Z hi) by (rewrite <- Zlt_Qlt; lia). rewrite E. split; nra.
Qed.
Lemma quantile_edges_nth n xs i : (i <= n)%nat -> nth_error (quantile_edges n xs) i = Some (quantile xs (zq i / zq n)).
Proof. intros H. unfold quantile_edges. rewrite nth_error_map, linspace_nth by exact H. reflexivity. Qed.
Lemma quantile_edges_sorted n xs : (0 < n)%nat -> xs <> [] -> StronglySorted Qle (quantile_edges n xs).
Proof.
  intros Hn Hne. unfold quantile_edges, linspace01. rewrite map_map. apply sorted_map_seq. intros i j _ H1 H2. fold (zq i) (zq j) (zq n).
  destruct (ratio_bounds i n Hn ltac:(lia)), (ratio_bounds j n Hn ltac:(lia)). apply quantile_mono; try assumption. now apply ratio_mono.
Qed.
Lemma sorted_least xs : xs <> [] -> nth 0 (np_sort xs) 0%Z = col_min xs.
Proof.
  intros H. apply (least_eq _ _ xs); [|now apply col_min_least]. assert (L : (0 < length (np_sort xs))%nat) by (rewrite np_sort_length; destruct xs; [congruence|cbn; lia]). split.
  - apply (Permutation_in _ (np_sort_perm xs)). now apply nth_In.
  - intros x Hx. apply (Permutation_in _ (Permutation_sym (np_sort_perm xs))) in Hx. apply (In_nth _ _ 0%Z) in Hx as (k & Hk & <-). apply sorted_nth; [apply np_sort_sorted|lia|exact Hk].
Qed.
Lemma sorted_greatest xs : xs <> [] -> nth (length xs - 1) (np_sort xs) 0%Z = col_max xs.
Proof.
  intros H. apply (greatest_eq _ _ xs); [|now apply col_max_greatest]. assert (L : (0 < length xs)%nat) by (destruct xs; [congruence|cbn; lia]). split.
  - apply (Permutation_in _ (np_sort_perm xs)). apply nth_In. rewrite np_sort_length. lia.
  - intros x Hx. apply (Permutation_in _ (Permutation_sym (np_sort_perm xs))) in Hx. apply (In_nth _ _ 0%Z) in Hx as (k & Hk & <-). rewrite np_sort_length in Hk. apply sorted_nth; [apply np_sort_sorted|lia|rewrite np_sort_length; lia].
Qed.
Lemma zq_pred n : (0 < n)%nat -> zq (n - 1) == zq n - 1.
Proof. intros H. destruct n; [lia|]. replace (S n - 1)%nat with n by lia. rewrite zq_S. ring. Qed.
Lemma quantile_range xs q : xs <> [] -> 0 <= q -> q <= 1 -> inject_Z (col_min xs) <= quantile xs q /\ quantile xs q <= inject_Z (col_max xs).
Proof.
  intros Hne H0 H1. assert (L : (0 < length xs)%nat) by (destruct xs; [congruence|cbn; lia]). destruct (quantile_between xs q Hne H0 H1) as [A B].
  pose proof (zq_pred _ L) as E. assert (Hm : 0 <= zq (length xs) - 1) by (rewrite <- E; apply zq_pos). split.
  - rewrite <- sorted_least by exact Hne. apply B. change (zq 0) with 0. nra.
  - rewrite <- sorted_greatest by exact Hne. apply A; [rewrite E; nra|lia].
Qed.

(** ** slope of the quantiles of distinct integers *)
Definition interp (s : list Z) (h : Q) : Q := let i := Z.to_nat (Qfloor h) in let a := nth i s 0%Z in let b := nth (S i) s a in inject_Z a + (h - inject_Z (Qfloor h)) * inject_Z (b - a).
Lemma nodup_sorted_gap s : nondecreasing s -> NoDup s -> forall k i, (i + k < length s)%nat -> (nth i s 0 + Z.of_nat k <= nth (i + k) s 0)%Z.
Proof.
  intros Hs Hd. induction k as [|k IH]; intros i Hi; [rewrite Nat.add_0_r; lia|]. specialize (IH i ltac:(lia)).
  assert (L : (nth (i + k) s 0 <= nth (i + S k) s 0)%Z) by (apply sorted_nth; [exact Hs|lia|exact Hi]).
  assert (N : nth (i + k) s 0%Z <> nth (i + S k) s 0%Z) by (intros G; apply (proj1 (NoDup_nth s 0%Z) Hd) in G; lia). lia.
Qed.
Lemma interp_slope s h h' : nondecreasing s -> NoDup s -> s <> [] -> 0 <= h -> h <= h' -> h' <= zq (length s) - 1 -> h' - h <= interp s h' - interp s h.
Proof.
  intros Hs Hd Hne H0 H1 H2. assert (Ln : (0 < length s)%nat) by (destruct s; [congruence|cbn; lia]). pose proof (zq_pred _ Ln) as En.
  unfold interp. assert (Hf : forall g, 0 <= g -> g <= zq (length s) - 1 -> inject_Z (Qfloor g) = zq (Z.to_nat (Qfloor g)) /\ zq (Z.to_nat (Qfloor g)) <= g /\ g < zq (Z.to_nat (Qfloor g)) + 1 /\ (Z.to_nat (Qfloor g) <= length s - 1)%nat).
  { intros g G0 G1. assert (Z0 : (0 <= Qfloor g)%Z) by (change 0%Z with (Qfloor 0); now apply Qfloor_resp_le). assert (E : inject_Z (Qfloor g) = zq (Z.to_nat (Qfloor g))) by (unfold zq; now rewrite Z2Nat.id).
    split; [exact E|]. assert (L : zq (Z.to_nat (Qfloor g)) <= g) by (rewrite <- E; apply Qfloor_le). split; [exact L|]. split; [rewrite <- E; pose proof (Qlt_floor g) as H; rewrite inject_Z_plus in H; exact H|]. apply zq_le. rewrite En. lra. }
  destruct (Hf h H0 ltac:(lra)) as (E1 & L1 & U1 & B1). destruct (Hf h' ltac:(lra) H2) as (E2 & L2 & U2 & B2). rewrite E1, E2. set (i := Z.to_nat (Qfloor h)) in *. set (j := Z.to_nat (Qfloor h')) in *.
  assert (Hij : (i <= j)%nat) by (apply Z2Nat.inj_le; try (now apply Qfloor_resp_le); apply (Qfloor_resp_le 0); lra).
  assert (Gap : forall k, (k < length s - 1)%nat -> 1 <= inject_Z (nth (S k) s (nth k s 0%Z) - nth k s 0%Z)).
  { intros k Hk. change 1 with (inject_Z 1). rewrite <- Zle_Qle. rewrite (nth_indep s _ 0%Z) by lia. pose proof (nodup_sorted_gap s Hs Hd 1 k ltac:(lia)) as G. replace (k + 1)%nat with (S k) in G by lia. lia. }
  destruct (Nat.eq_dec i j) as [E|N].
  - rewrite E in *. destruct (Nat.eq_dec j (length s - 1)) as [Ej|Nj].
    + assert (h == zq j) by (rewrite Ej in *; rewrite En in *; lra). assert (h' == zq j) by (rewrite Ej in *; rewrite En in *; lra). rewrite H, H3. lra.
    + pose proof (Gap j ltac:(lia)) as G. set (d := inject_Z (nth (S j) s (nth j s 0%Z) - nth j s 0%Z)) in *. nra.
  - pose proof (Gap i ltac:(lia)) as G. assert (Hi : (S i < length s)%nat) by lia. rewrite (nth_indep s (nth i s 0%Z) 0%Z) in * by lia. set (a := nth i s 0%Z) in *. set (b := nth (S i) s 0%Z) in *.
    pose proof (nodup_sorted_gap s Hs Hd (j - S i) (S i) ltac:(lia)) as G2. replace (S i + (j - S i))%nat with j in G2 by lia. fold b in G2. set (c := nth j s 0%Z) in *.
    assert (G3 : inject_Z b + (zq j - zq (S i)) <= inject_Z c). { rewrite Zle_Qle, inject_Z_plus in G2. rewrite Nat2Z.inj_sub in G2 by lia. rewrite inj_minus in G2. exact G2. }
    rewrite zq_S in G3.
    assert (G4 : h' - zq j <= (h' - zq j) * inject_Z (nth (S j) s c - c)).
    { destruct (Nat.eq_dec j (length s - 1)) as [Ej|Nj]; [assert (E : h' - zq j == 0) by (rewrite Ej in *; rewrite En in *; lra); rewrite E; lra|]. pose proof (Gap j ltac:(lia)) as G5. fold c in G5. nra. }
    assert (G6 : zq i + 1 - h <= (zq i + 1 - h) * inject_Z (b - a)) by nra.
    assert (G7 : inject_Z a + (h - zq i) * inject_Z (b - a) <= inject_Z b - (zq i + 1 - h)).
    { setoid_replace (inject_Z a + (h - zq i) * inject_Z (b - a)) with (inject_Z a + inject_Z (b - a) - (zq i + 1 - h) * inject_Z (b - a)) by ring. rewrite inj_minus in G6 |- *. lra. }
    set (P := (h' - zq j) * inject_Z (nth (S j) s c - c)) in *. set (R := inject_Z a + (h - zq i) * inject_Z (b - a)) in *. lra.
Qed.
Lemma interp_nat s k : (k < length s)%nat -> interp s (zq k) == inject_Z (nth k s 0%Z).
Proof. intros H. unfold interp, zq. rewrite Qfloor_Z, Nat2Z.id. ring. Qed.
Lemma quantile_interp xs q : quantile xs q = interp (np_sort xs) (q * inject_Z (Z.of_nat (length xs) - 1)).
Proof. reflexivity. Qed.

(** ** counting *)
Lemma count_perm p xs xs' : Permutation xs xs' -> count p xs = count p xs'.
Proof. unfold count. induction 1; cbn; [reflexivity|destruct (p x); cbn; congruence|destruct (p x), (p y); reflexivity|congruence]. Qed.
Lemma count_prefix p : forall s c, (c <= length s)%nat -> (forall k, (k < length s)%nat -> p (nth k s 0%Z) = Nat.ltb k c) -> count p s = c.
Proof.
  unfold count. induction s as [|a r IH]; intros c Hc H; cbn [length] in *; [cbn; lia|]. pose proof (H 0%nat ltac:(lia)) as H0. cbn [nth] in H0. cbn [filter]. rewrite H0. destruct c as [|c].
  - cbn. apply IH; [lia|]. intros k Hk. apply (H (S k)). lia.
  - change (Nat.ltb 0 (S c)) with true. cbn [length]. f_equal. apply IH; [lia|]. intros k Hk. exact (H (S k) ltac:(lia)).
Qed.
Lemma count_le_prefix p : forall s k, (forall i, (k <= i)%nat -> (i < length s)%nat -> p (nth i s 0%Z) = false) -> (count p s <= k)%nat.
Proof.
  unfold count. induction s as [|a r IH]; intros k H; [cbn; lia|]. cbn [filter]. destruct k as [|k].
  - pose proof (H 0%nat ltac:(lia) ltac:(cbn; lia)) as H0. cbn [nth] in H0. rewrite H0. apply (IH 0%nat). intros i Hi Hl. apply (H (S i)); [lia|cbn; lia].
  - assert (length (filter p r) <= k)%nat by (apply IH; intros i Hi Hl; apply (H (S i)); [lia|cbn; lia]). destruct (p a); cbn [length]; lia.
Qed.
Lemma nat_ceil q : 0 <= q -> exists c : nat, zq c - 1 < q /\ q <= zq c.
Proof.
  intros H. exists (Z.to_nat (Qceiling q)). assert (Z0 : (0 <= Qceiling q)%Z) by (change 0%Z with (Qceiling 0); now apply Qceiling_resp_le). unfold zq. rewrite Z2Nat.id by exact Z0.
  split; [pose proof (Qceiling_lt q) as L; unfold Z.sub in L; rewrite inject_Z_plus in L; exact L|apply Qle_ceiling].
Qed.
Lemma below_interp xs h : xs <> [] -> NoDup xs -> 0 <= h -> h <= zq (length xs) - 1 -> zq (records_below (interp (np_sort xs) h) xs) - 1 < h /\ h <= zq (records_below (interp (np_sort xs) h) xs).
Proof.
  intros Hne Hd H0 H1. destruct (nat_ceil h H0) as (c & C1 & C2). assert (Ln : (0 < length xs)%nat) by (destruct xs; [congruence|cbn; lia]). pose proof (zq_pred _ Ln) as En.
  assert (Hds : NoDup (np_sort xs)) by (eapply Permutation_NoDup; [apply Permutation_sym, np_sort_perm|exact Hd]). assert (Hns : np_sort xs <> []) by (intros E; apply (f_equal (@length Z)) in E; rewrite np_sort_length in E; cbn in E; lia).
  assert (E : records_below (interp (np_sort xs) h) xs = c).
  { unfold records_below. rewrite <- (count_perm _ _ _ (np_sort_perm xs)). apply count_prefix.
    - rewrite np_sort_length. destruct c as [|c]; [lia|]. assert (zq c <= zq (length xs - 1)) by (rewrite zq_S in C1; rewrite En; lra). apply zq_le in H. lia.
    - intros k Hk. rewrite np_sort_length in Hk. assert (Hkm : zq k <= zq (length xs) - 1) by (rewrite <- En; apply zq_le; lia). pose proof (interp_nat (np_sort xs) k ltac:(rewrite np_sort_length; exact Hk)) as Ek.
      destruct (Nat.ltb_spec k c) as [L|L].
      + assert (Hk1 : zq k < h). { apply Nat.le_succ_l, zq_le in L. rewrite zq_S in L. lra. }
        pose proof (interp_slope (np_sort xs) (zq k) h (np_sort_sorted xs) Hds Hns (zq_pos k) ltac:(lra) ltac:(rewrite np_sort_length; lra)) as S. rewrite Ek in S. apply negb_true_iff. apply not_true_is_false. intros G. apply Qle_bool_iff in G. lra.
      + assert (Hk1 : h <= zq k) by (apply zq_le in L; lra). pose proof (interp_slope (np_sort xs) h (zq k) (np_sort_sorted xs) Hds Hns H0 Hk1 ltac:(rewrite np_sort_length; lra)) as S. rewrite Ek in S. apply negb_false_iff. apply Qle_bool_iff. lra. }
  rewrite E. split; assumption.
Qed.
