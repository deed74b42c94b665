From Coq Require Import List ZArith QArith Qabs Qround Lia Lqa Bool Arith Permutation Sorting.
From Verif Require Import Model.Arr Model.Core Model.Mdlp Model.Outlier Spec.CoreSpec Spec.OutlierSpec Proofs.ArrP Proofs.CoreP Proofs.MdlpP.
Import ListNotations.
Open Scope Z_scope.

(** ** sorting *)
Lemma np_sort_perm l : Permutation (np_sort l) l.
Proof. induction l as [|a r IH]; [constructor|]. cbn. rewrite insert_sorted_perm. now constructor. Qed.
Lemma np_sort_sorted l : nondecreasing (np_sort l).
Proof. exact (mdlp_splits_sorted l). Qed.
Lemma np_sort_length l : length (np_sort l) = length l.
Proof. apply Permutation_length, np_sort_perm. Qed.
Lemma np_sort_eq l l' : Permutation l l' -> np_sort l = np_sort l'.
Proof.
  intros H. apply sorted_perm_unique; try apply np_sort_sorted.
  rewrite (np_sort_perm l), (np_sort_perm l'). exact H.
Qed.
Lemma insert_map a b z l : 0 < a -> insert_sorted (a * z + b) (map (fun x => a * x + b) l) = map (fun x => a * x + b) (insert_sorted z l).
Proof.
  intros Ha. induction l as [|y r IH]; [reflexivity|]. cbn [insert_sorted map].
  destruct (Z.leb_spec z y), (Z.leb_spec (a * z + b) (a * y + b)); try nia; [reflexivity|]. cbn [map]. now rewrite IH.
Qed.
Lemma np_sort_map a b l : 0 < a -> np_sort (map (fun x => a * x + b) l) = map (fun x => a * x + b) (np_sort l).
Proof. intros Ha. induction l as [|z r IH]; [reflexivity|]. cbn [map np_sort fold_right]. unfold np_sort in IH. rewrite IH. now apply insert_map. Qed.
Lemma sorted_nth l i j d : nondecreasing l -> (i <= j)%nat -> (j < length l)%nat -> nth i l d <= nth j l d.
Proof.
  intros Hl. revert i j. induction Hl as [|a r Hr IH Hf]; intros i j Hij Hj; [cbn in Hj; lia|].
  destruct j as [|j]; [assert (i = 0)%nat by lia; subst; cbn; lia|]. cbn [length] in Hj.
  destruct i as [|i]; cbn [nth]; [|apply IH; lia]. rewrite Forall_forall in Hf. apply Hf, nth_In. lia.
Qed.

(** ** quantiles *)
Open Scope Q_scope.
Lemma zq_S n : zq (S n) == zq n + 1.
Proof. unfold zq. rewrite Nat2Z.inj_succ. unfold Z.succ. rewrite inject_Z_plus. reflexivity. Qed.
Lemma zq_le a b : zq a <= zq b <-> (a <= b)%nat.
Proof. unfold zq. rewrite <- Zle_Qle. lia. Qed.
Lemma zq_lt a b : zq a < zq b <-> (a < b)%nat.
Proof. unfold zq. rewrite <- Zlt_Qlt. lia. Qed.
Lemma zq_pos n : 0 <= zq n.
Proof. change 0 with (zq 0). apply zq_le. lia. Qed.

Lemma pos_spec q n : 0 <= q -> q <= 1 -> (0 < n)%nat ->
  let h := q * inject_Z (Z.of_nat n - 1) in let i := Z.to_nat (Qfloor h) in
  h == q * (zq n - 1) /\ inject_Z (Qfloor h) = zq i /\ zq i <= h /\ h < zq i + 1 /\ (i <= n - 1)%nat.
Proof.
  intros H0 H1 Hn h i. assert (E : inject_Z (Z.of_nat n - 1) == zq n - 1).
  { unfold zq. unfold Z.sub, Qminus. rewrite inject_Z_plus, inject_Z_opp. reflexivity. }
  assert (Hz : 0 <= zq n - 1) by (change 1 with (zq 1); apply Qle_minus_iff; apply -> Qle_minus_iff; apply -> Qle_minus_iff; apply zq_le; lia).
  assert (Eh : h == q * (zq n - 1)) by (unfold h; now rewrite E).
  assert (Hh : 0 <= h) by (rewrite Eh; apply Qmult_le_0_compat; assumption).
  assert (Hf : (0 <= Qfloor h)%Z).
  { assert (H : (Qfloor 0 <= Qfloor h)%Z) by (now apply Qfloor_resp_le). exact H. }
  assert (Ei : inject_Z (Qfloor h) = zq i) by (unfold zq, i; now rewrite Z2Nat.id).
  split; [exact Eh|]. split; [exact Ei|]. split; [rewrite <- Ei; apply Qfloor_le|].
  split; [rewrite <- Ei; pose proof (Qlt_floor h) as H; rewrite inject_Z_plus in H; exact H|].
  assert (H : h <= zq n - 1) by (rewrite Eh; nra).
  assert (H' : zq i <= zq n - 1) by (eapply Qle_trans; [|exact H]; rewrite <- Ei; apply Qfloor_le).
  assert (zq (S i) <= zq n) by (rewrite zq_S; lra). apply zq_le in H2. lia.
Qed.

Lemma sorted_inject s : nondecreasing s -> StronglySorted Qle (map inject_Z s).
Proof.
  induction 1 as [|a r Hr IH Hf]; cbn; constructor; [exact IH|]. rewrite Forall_forall in *. intros x Hx. apply in_map_iff in Hx as (z & <- & Hz).
  rewrite <- Zle_Qle. now apply Hf.
Qed.
Lemma nth_error_nth' {A} (l : list A) i d : (i < length l)%nat -> nth_error l i = Some (nth i l d).
Proof. intros H. apply nth_error_nth'. exact H. Qed.

Lemma quantile_ok xs q : xs <> [] -> 0 <= q -> q <= 1 -> quantile_of (values xs) q (quantile xs q).
Proof.
  intros Hne H0 H1. assert (Hn : (0 < length xs)%nat) by (destruct xs; [congruence|cbn; lia]).
  destruct (pos_spec q (length xs) H0 H1 Hn) as (Eh & Ei & L & U & B). unfold quantile. set (h := q * inject_Z (Z.of_nat (length xs) - 1)) in *.
  set (i := Z.to_nat (Qfloor h)) in *. set (s := np_sort xs). set (a := nth i s 0%Z). assert (Hs : length s = length xs) by apply np_sort_length.
  exists (values s), i, (inject_Z a), (inject_Z (nth (S i) s a)).
  split; [unfold values; apply Permutation_map, Permutation_sym, np_sort_perm|].
  split; [apply sorted_inject, np_sort_sorted|].
  split; [unfold values; rewrite nth_error_map, (nth_error_nth' s i 0%Z) by lia; reflexivity|].
  assert (Lv : length (values xs) = length xs) by apply map_length. rewrite Lv.
  split.
  { unfold values. rewrite nth_error_map. destruct (Nat.lt_ge_cases (S i) (length xs)) as [Hlt|Hge].
    - rewrite Nat.min_l by lia. rewrite (nth_error_nth' s (S i) a) by lia. reflexivity.
    - rewrite Nat.min_r by lia. replace (length xs - 1)%nat with i by lia.
      rewrite (nth_error_nth' s i 0%Z) by lia. fold a. rewrite (nth_overflow s a) by lia. reflexivity. }
  cbn zeta. rewrite <- Eh. split; [exact L|]. split; [lra|]. rewrite Ei. unfold Z.sub. rewrite inject_Z_plus, inject_Z_opp. reflexivity.
Qed.

(** ** unit changes *)
Lemma quantile_affine a b xs q : (0 < a)%Z -> xs <> [] -> 0 <= q -> q <= 1 ->
  quantile (map (fun x => (a * x + b)%Z) xs) q == inject_Z a * quantile xs q + inject_Z b.
Proof.
  intros Ha Hne H0 H1. assert (Hn : (0 < length xs)%nat) by (destruct xs; [congruence|cbn; lia]).
  destruct (pos_spec q (length xs) H0 H1 Hn) as (Eh & Ei & L & U & B). unfold quantile. rewrite map_length, np_sort_map by exact Ha.
  set (h := q * inject_Z (Z.of_nat (length xs) - 1)) in *. set (i := Z.to_nat (Qfloor h)) in *. set (s := np_sort xs).
  assert (Hs : length s = length xs) by apply np_sort_length. set (f := fun x => (a * x + b)%Z).
  assert (E1 : nth i (map f s) 0%Z = f (nth i s 0%Z)) by (rewrite (nth_indep _ _ (f 0%Z)) by (rewrite map_length; lia); apply map_nth).
  rewrite E1, map_nth. set (x := nth i s 0%Z). set (y := nth (S i) s x). unfold f.
  replace (a * y + b - (a * x + b))%Z with (a * (y - x))%Z by ring. rewrite inject_Z_plus, !inject_Z_mult. ring.
Qed.

(** ** highest density interval *)
Open Scope Z_scope.
Lemma argmin_spec l : l <> [] -> (argmin l < length l)%nat /\ (forall i, (i < length l)%nat -> nth (argmin l) l 0 <= nth i l 0) /\
  (forall i, (i < argmin l)%nat -> nth (argmin l) l 0 < nth i l 0).
Proof.
  induction l as [|a r IH]; intros H; [congruence|]. destruct r as [|c r']; [cbn; split; [lia|]; split; [intros [|[|i]] Hi; cbn; lia|intros i Hi; lia]|].
  destruct (IH ltac:(discriminate)) as (I1 & I2 & I3). set (r := c :: r') in *.
  change (argmin (a :: r)) with (if a <=? nth (argmin r) r 0 then 0%nat else S (argmin r)).
  destruct (Z.leb_spec a (nth (argmin r) r 0)) as [Hle|Hgt].
  - split; [cbn; lia|]. split; [|intros i Hi; lia]. intros [|i] Hi; [cbn; lia|]. cbn [nth]. cbn [length] in Hi. specialize (I2 i ltac:(lia)). lia.
  - split; [cbn [length]; lia|]. split.
    + intros [|i] Hi; cbn [nth]; [lia|]. cbn [length] in Hi. apply I2. lia.
    + intros [|i] Hi; cbn [nth]; [lia|]. apply I3. lia.
Qed.
Lemma map2_length' {A B C} (f : A -> B -> C) : forall a b, length (map2 f a b) = Nat.min (length a) (length b).
Proof. induction a as [|x a IH]; intros [|y b]; cbn; auto. Qed.
Lemma nth_map2 {A B C} (f : A -> B -> C) dc da db : forall a b i, (i < length a)%nat -> (i < length b)%nat -> nth i (map2 f a b) dc = f (nth i a da) (nth i b db).
Proof. induction a as [|x a IH]; intros [|y b] [|i] Ha Hb; cbn in *; try lia; [reflexivity|]. apply IH; lia. Qed.
Lemma nth_skipn {A} (l : list A) d : forall k i, nth i (skipn k l) d = nth (i + k) l d.
Proof.
  induction l as [|a r IH]; intros k i; [rewrite skipn_nil, !nth_overflow by (cbn; lia); reflexivity|]. destruct k as [|k]; [now rewrite Nat.add_0_r|].
  rewrite <- plus_n_Sm. cbn. apply IH.
Qed.
Lemma nth_firstn' {A} (l : list A) d : forall k i, (i < k)%nat -> nth i (firstn k l) d = nth i l d.
Proof. induction l as [|a r IH]; intros [|k] [|i] H; cbn; try lia; auto. apply IH. lia. Qed.

Open Scope Q_scope.
Lemma n_included_spec L n : 0 <= L -> L * zq n <= zq (n_included L n) /\ zq (n_included L n) < L * zq n + 1.
Proof.
  intros HL. unfold n_included. fold (zq n). assert (H0 : 0 <= L * zq n) by (apply Qmult_le_0_compat; [exact HL|apply zq_pos]).
  assert (Hc : (0 <= Qceiling (L * zq n))%Z).
  { assert (H : (Qceiling 0 <= Qceiling (L * zq n))%Z) by (now apply Qceiling_resp_le). exact H. }
  set (w := L * zq n) in *. unfold zq. rewrite Z2Nat.id by exact Hc. split; [apply Qle_ceiling|].
  pose proof (Qceiling_lt w) as H. unfold Z.sub in H. rewrite inject_Z_plus in H. change (inject_Z (-(1))) with (-1) in H. lra.
Qed.
Lemma hdi_ok L xs lb ub : 0 <= L -> hdi L xs = Ok (lb, ub) -> shortest_window L xs lb ub.
Proof.
  intros HL. unfold hdi. set (k := n_included L (length xs)). set (s := np_sort xs). set (ci := map2 Z.sub _ _).
  intros H. destruct ci as [|c0 cr] eqn:Ec; [discriminate|]. rewrite <- Ec in H. assert (Hne : ci <> []) by congruence.
  destruct (argmin_spec ci Hne) as (A1 & A2 & A3). injection H as <- <-. set (j := argmin ci) in *.
  assert (Hs : length s = length xs) by apply np_sort_length.
  assert (Hl : length ci = (length xs - k)%nat) by (unfold ci; rewrite map2_length', skipn_length, firstn_length, Hs; lia).
  assert (Hci : forall i, (i < length ci)%nat -> nth i ci 0%Z = (nth (i + k) s 0 - nth i s 0)%Z).
  { intros i Hi. unfold ci. rewrite (nth_map2 _ 0%Z 0%Z 0%Z) by (rewrite ?skipn_length, ?firstn_length; lia).
    rewrite nth_skipn, nth_firstn' by lia. reflexivity. }
  destruct (n_included_spec L (length xs) HL) as (K1 & K2).
  exists s, k, j. split; [apply Permutation_sym, np_sort_perm|]. split; [apply np_sort_sorted|]. split; [exact K1|]. split; [exact K2|].
  split; [lia|]. cbn zeta. split; [reflexivity|]. split; [reflexivity|]. rewrite <- (Hci j A1). split.
  - intros j' Hj'. rewrite <- Hci by lia. apply A2. lia.
  - intros j' Hj'. rewrite <- Hci by lia. apply A3. lia.
Qed.

(** ** range detector *)
Lemma half_bounds L : 0 <= L -> L <= 1 -> 0 <= (1 - L) / 2 /\ (1 - L) / 2 <= 1 /\ 0 <= (1 + L) / 2 /\ (1 + L) / 2 <= 1.
Proof. intros. assert (E : forall x, x / 2 == x * (1 # 2)) by (intros; reflexivity). rewrite !E. lra. Qed.
Lemma interval_ok p xs lb ub : 0 <= r_length p -> r_length p <= 1 -> xs <> [] -> interval p xs = Ok (lb, ub) -> credible_interval p xs lb ub.
Proof.
  intros H0 H1 Hne. unfold interval, credible_interval. destruct (r_method p).
  - intros H. injection H as <- <-. destruct (half_bounds _ H0 H1) as (A & B & C & D). split; now apply quantile_ok.
  - apply hdi_ok. exact H0.
Qed.
Lemma nle_lt a b : negb (Qle_bool a b) = true <-> b < a.
Proof.
  rewrite negb_true_iff. split; intros H.
  - apply Qnot_le_lt. intros G. apply Qle_bool_iff in G. congruence.
  - destruct (Qle_bool a b) eqn:E; [|reflexivity]. apply Qle_bool_iff in E. exfalso. now apply (Qlt_not_le b a).
Qed.
Definition range_flag (p : range_params) (lb ub : Q) (x : Z) : bool :=
  negb (Qle_bool (inject_Z x) (ub + r_k p * (ub - lb))) || negb (Qle_bool (lb - r_k p * (ub - lb)) (inject_Z x)).
Lemma range_flag_iff p lb ub x : range_flag p lb ub x = true <-> range_outlier p lb ub x.
Proof. unfold range_flag, range_outlier. rewrite orb_true_iff, !nle_lt. tauto. Qed.
Lemma range_fit_inv p xs m : range_fit p xs = Ok m -> 0 <= r_length p /\ r_length p <= 1 /\
  exists lb ub, interval p xs = Ok (lb, ub) /\ m = map (range_flag p lb ub) xs.
Proof.
  unfold range_fit. destruct (Qle_bool 0 (r_length p) && Qle_bool (r_length p) 1) eqn:E; cbn [negb]; [|discriminate].
  apply andb_true_iff in E as [E1 E2]. apply Qle_bool_iff in E1, E2. intros H. split; [exact E1|]. split; [exact E2|].
  destruct (interval p xs) as [[lb ub]|e]; [|discriminate]. cbn [rbind fst snd] in H. injection H as <-. exists lb, ub. split; reflexivity.
Qed.

(** ** medians and z-scores *)
Lemma half_q l : median2 l = let s := np_sort l in (nth (Nat.div (length l - 1) 2) s 0 + nth (Nat.div (length l) 2) s 0)%Z.
Proof. reflexivity. Qed.
(** the middle of any list g_0 <= ... <= g_(n-1) *)
Lemma median_mid (s : list Q) n a b : length s = n -> (0 < n)%nat -> StronglySorted Qle s ->
  nth_error s (Nat.div (n - 1) 2) = Some a -> nth_error s (Nat.div n 2) = Some b -> median_of s ((a + b) / 2).
Proof.
  intros Hl Hn Hs Ha Hb. pose proof (Nat.div_mod (n - 1) 2 ltac:(lia)) as D. pose proof (Nat.mod_upper_bound (n - 1) 2 ltac:(lia)) as M.
  set (i := Nat.div (n - 1) 2) in *. exists s, i, a.
  assert (Hi : (i < n)%nat) by lia.
  destruct (nth_error s (Nat.min (S i) (n - 1))) as [c|] eqn:Ec; [|apply nth_error_None in Ec; lia].
  exists c. split; [reflexivity|]. split; [exact Hs|]. split; [exact Ha|]. rewrite Hl. split; [exact Ec|].
  assert (E : zq n - 1 == zq (n - 1)).
  { replace n with (S (n - 1)) at 1 by lia. rewrite zq_S. ring. }
  cbn zeta. rewrite E.
  assert (Ez : zq (n - 1) == 2 * zq i + zq (Nat.modulo (n - 1) 2)).
  { rewrite D at 1. unfold zq. rewrite Nat2Z.inj_add, Nat2Z.inj_mul, inject_Z_plus, inject_Z_mult. reflexivity. }
  destruct (Nat.modulo (n - 1) 2) as [|[|r]] eqn:Em; [| |lia].
  - change (zq 0) with 0 in Ez. assert (E2 : Nat.div n 2 = i).
    { symmetry. apply (Nat.div_unique n 2 i 1); lia. }
    rewrite E2, Ha in Hb. injection Hb as <-. rewrite Ez. split; [lra|]. split; [lra|]. setoid_replace ((a + a) / 2) with a by field. ring.
  - change (zq 1) with 1 in Ez. assert (E2 : Nat.div n 2 = S i).
    { symmetry. apply (Nat.div_unique n 2 (S i) 0); lia. }
    rewrite E2 in Hb. rewrite Nat.min_l in Ec by lia. rewrite Hb in Ec. injection Ec as <-. rewrite Ez. split; [lra|]. split; [lra|]. field.
Qed.
Lemma median_ok xs : xs <> [] -> median_of (values xs) (inject_Z (median2 xs) / 2).
Proof.
  intros Hne. assert (Hn : (0 < length xs)%nat) by (destruct xs; [congruence|cbn; lia]).
  set (s := np_sort xs). assert (Hs : length s = length xs) by apply np_sort_length.
  assert (I1 : (Nat.div (length xs - 1) 2 < length s)%nat) by (pose proof (Nat.div_le_upper_bound (length xs - 1) 2 (length xs - 1) ltac:(lia) ltac:(lia)); lia).
  assert (I2 : (Nat.div (length xs) 2 < length s)%nat) by (pose proof (Nat.div_lt (length xs) 2 Hn ltac:(lia)); lia).
  assert (G : median_of (values s) (inject_Z (median2 xs) / 2)).
  { unfold median2. fold s. rewrite inject_Z_plus. apply (median_mid (values s) (length xs)); [unfold values; now rewrite map_length|exact Hn|apply sorted_inject, np_sort_sorted| |];
      unfold values; rewrite nth_error_map, (nth_error_nth' s _ 0%Z) by lia; reflexivity. }
  destruct G as (t & i & a & b & P & R). exists t, i, a, b. split; [rewrite <- P; apply Permutation_map, Permutation_sym, np_sort_perm|].
  unfold values in *. rewrite map_length in *. now rewrite Hs in R.
Qed.
Lemma quantile_of_ext l q v v' : v == v' -> quantile_of l q v -> quantile_of l q v'.
Proof.
  intros E (s & i & a & b & P & S1 & A & B & H). exists s, i, a, b. do 4 (split; [assumption|]). cbn zeta in *. now rewrite <- E.
Qed.
Definition med_of (xs : list Z) : Q := inject_Z (median2 xs) / 2.
Definition adev (xs : list Z) (x : Z) : Q := Qabs (inject_Z x - med_of xs).
Lemma adev_eq xs x : adev xs x == inject_Z (dev2 xs x) / 2.
Proof.
  unfold adev, dev2, med_of. set (m := median2 xs). assert (E : inject_Z x - inject_Z m / 2 == inject_Z (2 * x - m) * (1 # 2)).
  { unfold Z.sub. rewrite inject_Z_plus, inject_Z_mult, inject_Z_opp. change (inject_Z 2) with 2. field. }
  rewrite E, Qabs_Qmult. change (Qabs (1 # 2)) with (1 # 2). assert (Ea : Qabs (inject_Z (2 * x - m)) == inject_Z (Z.abs (2 * x - m))) by reflexivity.
  rewrite Ea. field.
Qed.
Lemma sorted_map_dev xs : forall l, nondecreasing (map (dev2 xs) l) -> StronglySorted Qle (map (adev xs) l).
Proof.
  induction l as [|a r IH]; intros H; [constructor|]. cbn [map] in *. inversion H as [|? ? H1 H2]. constructor; [now apply IH|].
  rewrite Forall_forall in *. intros x Hx. apply in_map_iff in Hx as (z & <- & Hz). rewrite !adev_eq.
  assert (Hle : (dev2 xs a <= dev2 xs z)%Z) by (apply H2; now apply in_map). rewrite Zle_Qle in Hle.
  apply Qmult_le_compat_r; [exact Hle|discriminate].
Qed.
Lemma mad_ok xs : xs <> [] -> median_of (map (adev xs) xs) (inject_Z (mad4 xs) / 4).
Proof.
  intros Hne. assert (Hn : (0 < length xs)%nat) by (destruct xs; [congruence|cbn; lia]).
  set (s := np_sort (map (dev2 xs) xs)). pose proof (np_sort_perm (map (dev2 xs) xs)) as HP. fold s in HP.
  apply Permutation_map_inv in HP as (l & El & HPl). pose proof (Permutation_length HPl) as Ll.
  assert (G : median_of (map (adev xs) l) (inject_Z (mad4 xs) / 4)).
  { set (i := Nat.div (length xs - 1) 2). set (j := Nat.div (length xs) 2).
    assert (I1 : (i < length l)%nat) by (pose proof (Nat.div_le_upper_bound (length xs - 1) 2 (length xs - 1) ltac:(lia) ltac:(lia)); unfold i; lia).
    assert (I2 : (j < length l)%nat) by (pose proof (Nat.div_lt (length xs) 2 Hn ltac:(lia)); unfold j; lia).
    apply (quantile_of_ext _ _ ((adev xs (nth i l 0%Z) + adev xs (nth j l 0%Z)) / 2)).
    - rewrite !adev_eq. unfold mad4, median2. rewrite map_length. fold s i j. rewrite El.
      rewrite !(nth_indep (map (dev2 xs) l) 0%Z (dev2 xs 0%Z)) by (rewrite map_length; lia). rewrite !map_nth, inject_Z_plus. field.
    - apply (median_mid _ (length xs)); [now rewrite map_length|exact Hn|apply sorted_map_dev; rewrite <- El; apply np_sort_sorted| |]; unfold i, j in *;
        rewrite nth_error_map, (nth_error_nth' l _ 0%Z) by lia; reflexivity. }
  destruct G as (t & k & a & b & P & R). exists t, k, a, b. split; [rewrite <- P; now apply Permutation_map|].
  rewrite map_length in *. now rewrite Ll.
Qed.

Definition z_flag (t : Q) (xs : list Z) (x : Z) : bool :=
  if (mad4 xs =? 0)%Z then negb (dev2 xs x =? 0)%Z
  else negb (Qle_bool ((6745 # 10000) * inject_Z (2 * dev2 xs x) / inject_Z (mad4 xs)) t).
Lemma z_flag_iff t xs x : z_flag t xs x = true <-> zscore_outlier t (med_of xs) (inject_Z (mad4 xs) / 4) x.
Proof.
  unfold z_flag, zscore_outlier. destruct (Z.eqb_spec (mad4 xs) 0) as [E|E].
  - assert (Em : Qeq_bool (inject_Z (mad4 xs) / 4) 0 = true) by (rewrite E; reflexivity). rewrite Em, negb_true_iff, Z.eqb_neq.
    assert (Ed : dev2 xs x = 0%Z <-> inject_Z x == med_of xs).
    { unfold dev2, med_of. set (m := median2 xs). rewrite Z.abs_0_iff. split; intros H.
      - assert (Eq : m = (2 * x)%Z) by lia. rewrite Eq, inject_Z_mult. change (inject_Z 2) with 2. field.
      - assert (H2 : inject_Z (2 * x) == inject_Z m) by (rewrite inject_Z_mult, H; change (inject_Z 2) with 2; field).
        apply (proj1 (inject_Z_injective _ _)) in H2. lia. }
    now rewrite Ed.
  - destruct (Qeq_bool (inject_Z (mad4 xs) / 4) 0) eqn:Eq.
    + apply Qeq_bool_iff in Eq. exfalso. apply E. assert (H : inject_Z (mad4 xs) == 0) by (setoid_replace (inject_Z (mad4 xs)) with (inject_Z (mad4 xs) / 4 * 4) by field; rewrite Eq; ring).
      change 0 with (inject_Z 0) in H. now apply (proj1 (inject_Z_injective _ _)) in H.
    + rewrite nle_lt. assert (Ez : ~ inject_Z (mad4 xs) == 0).
      { intros H. change 0 with (inject_Z 0) in H. now apply (proj1 (inject_Z_injective _ _)) in H. }
      assert (Ev : (6745 # 10000) * Qabs (inject_Z x - med_of xs) / (inject_Z (mad4 xs) / 4) == (6745 # 10000) * inject_Z (2 * dev2 xs x) / inject_Z (mad4 xs)).
      { fold (adev xs x). rewrite adev_eq, inject_Z_mult. change (inject_Z 2) with 2. field. exact Ez. }
      now rewrite Ev.
Qed.
Lemma zscore_fit_inv t xs m : zscore_fit t xs = Ok m -> 0 <= t /\ m = map (z_flag t xs) xs.
Proof.
  unfold zscore_fit. destruct (Qle_bool 0 t) eqn:E; cbn [negb]; [|discriminate]. apply Qle_bool_iff in E. intros H. injection H as <-. split; [exact E|reflexivity].
Qed.

(** every detector maps a flag function over the values *)
Lemma fit1_flags d xs m : fit1 d xs = Ok m -> exists f, m = map f xs /\ (xs <> [] -> forall x, flag_right d xs x (f x)).
Proof.
  destruct d as [p|t]; cbn [fit1]; intros H.
  - destruct (range_fit_inv p xs m H) as (H0 & H1 & lb & ub & Hi & ->). exists (range_flag p lb ub). split; [reflexivity|].
    intros Hne x. exists lb, ub. split; [now apply interval_ok|apply range_flag_iff].
  - destruct (zscore_fit_inv t xs m H) as (H0 & ->). exists (z_flag t xs). split; [reflexivity|]. intros Hne x.
    exists (med_of xs), (inject_Z (mad4 xs) / 4). split; [now apply median_ok|]. split; [now apply mad_ok|apply z_flag_iff].
Qed.
