(** The automatic trend on monotone rates. *)
From Coq Require Import List ZArith QArith Qabs Bool Lia Lqa.
From Verif Require Import Model.Arr Model.CP Model.AutoMono Spec.AutoSpec Proofs.AutoP.
Import ListNotations.
Open Scope Q_scope.

Lemma strict_lt x : strictly_rising x -> forall j k a b, (j < k)%nat -> nth_error x j = Some a -> nth_error x k = Some b -> a < b.
Proof.
  intros H j k a b Hjk Ha Hb. replace k with (j + S (k - j - 1))%nat in Hb by lia.
  apply (steps_chain Qlt) with (x := x) (i := j) (k := (k - j - 1)%nat); auto.
  - intros; lra.
  - intros q a' b' ? ? ? Hb'. apply (H q); auto; try lia. assert (E : nth_error x (S q) <> None) by congruence.
    apply nth_error_Some in E. lia.
Qed.
Lemma strict_gt x : strictly_falling x -> forall j k a b, (j < k)%nat -> nth_error x j = Some a -> nth_error x k = Some b -> b < a.
Proof.
  intros H j k a b Hjk Ha Hb. replace k with (j + S (k - j - 1))%nat in Hb by lia.
  apply (steps_chain (fun p q => q < p)) with (x := x) (i := j) (k := (k - j - 1)%nat); auto.
  - intros; lra.
  - intros q a' b' ? ? ? Hb'. apply (H q); auto; try lia. assert (E : nth_error x (S q) <> None) by congruence.
    apply nth_error_Some in E. lia.
Qed.

(** ** the regression slope *)
Lemma slope_shift n c x : forall i, slope_sum n i x ==
  slope_sum n i (map (fun q => q - c) x) + c * inject_Z (Z.of_nat (length x) * (2 * i + Z.of_nat (length x) - n)).
Proof.
  induction x as [|a x IH]; intros i; cbn [slope_sum map length].
  - cbn [Z.of_nat]. rewrite Z.mul_0_l. unfold inject_Z. lra.
  - rewrite (IH (i + 1)%Z).
    replace (Z.of_nat (S (length x)) * (2 * i + Z.of_nat (S (length x)) - n))%Z with
      ((2 * i - (n - 1)) + Z.of_nat (length x) * (2 * (i + 1) + Z.of_nat (length x) - n))%Z by lia.
    rewrite (inject_Z_plus (2 * i - (n - 1))). ring.
Qed.
Lemma slope_pos n x : forall i, (forall k a, nth_error x k = Some a -> 0 <= inject_Z (2 * (i + Z.of_nat k) - (n - 1)) * a) ->
  0 <= slope_sum n i x /\
  ((exists k a, nth_error x k = Some a /\ 0 < inject_Z (2 * (i + Z.of_nat k) - (n - 1)) * a) -> 0 < slope_sum n i x).
Proof.
  induction x as [|a x IH]; intros i H; cbn [slope_sum].
  - split; [lra|]. intros ([|k] & a & E & _); discriminate.
  - assert (H0 := H 0%nat a eq_refl). cbn [Z.of_nat] in H0. rewrite Z.add_0_r in H0.
    destruct (IH (i + 1)%Z) as [P1 P2].
    { intros k b E. specialize (H (S k) b E). replace (i + 1 + Z.of_nat k)%Z with (i + Z.of_nat (S k))%Z by lia. exact H. }
    split; [lra|]. intros ([|k] & b & E & HH).
    + cbn in E. injection E as <-. cbn [Z.of_nat] in HH. rewrite Z.add_0_r in HH. lra.
    + enough (0 < slope_sum n (i + 1) x) by lra. apply P2. exists k, b. split; [exact E|].
      replace (i + 1 + Z.of_nat k)%Z with (i + Z.of_nat (S k))%Z by lia. exact HH.
Qed.
Lemma inj_pos z : (0 < z)%Z -> 0 < inject_Z z.
Proof. intros H. unfold Qlt, inject_Z; cbn; lia. Qed.
Lemma inj_nonneg z : (0 <= z)%Z -> 0 <= inject_Z z.
Proof. intros H. unfold Qle, inject_Z; cbn; lia. Qed.
Lemma inj_nonpos z : (z <= 0)%Z -> inject_Z z <= 0.
Proof. intros H. unfold Qle, inject_Z; cbn; lia. Qed.
Lemma Qmul_nn a b : 0 <= a -> 0 <= b -> 0 <= a * b.
Proof. apply Qmult_le_0_compat. Qed.
Lemma Qmul_np a b : a <= 0 -> b <= 0 -> 0 <= a * b.
Proof. intros. setoid_replace (a * b) with ((- a) * (- b)) by ring. apply Qmul_nn; lra. Qed.
Lemma Qmul_pp a b : 0 < a -> 0 < b -> 0 < a * b.
Proof. intros. apply Qmult_lt_0_compat; assumption. Qed.

Lemma slope_rising x : (2 <= length x)%nat -> strictly_rising x -> 0 < slope_sum (Z.of_nat (length x)) 0 x.
Proof.
  intros Hn Hs. set (n := length x) in *. set (m := Nat.div (n - 1) 2).
  assert (Hm : (2 * m <= n - 1 < 2 * m + 2)%nat).
  { unfold m. pose proof (Nat.div_mod (n - 1) 2 ltac:(lia)). pose proof (Nat.mod_upper_bound (n - 1) 2 ltac:(lia)). lia. }
  destruct (nth_error x m) as [c|] eqn:Ec; [|apply nth_error_None in Ec; fold n in Ec; lia].
  rewrite (slope_shift _ c). fold n. replace (Z.of_nat n * (2 * 0 + Z.of_nat n - Z.of_nat n))%Z with 0%Z by lia.
  setoid_replace (c * inject_Z 0) with 0 by (unfold inject_Z; ring).
  assert (T : forall k a, nth_error x k = Some a ->
     ((k <= m)%nat /\ inject_Z (2 * (0 + Z.of_nat k) - (Z.of_nat n - 1)) <= 0 /\ a - c <= 0) \/
     ((m < k)%nat /\ 0 < inject_Z (2 * (0 + Z.of_nat k) - (Z.of_nat n - 1)) /\ 0 < a - c)).
  { intros k a Ha. destruct (Nat.le_gt_cases k m) as [Hk|Hk].
    - left. split; [exact Hk|]. split; [apply inj_nonpos; lia|]. destruct (Nat.eq_dec k m) as [->|].
      + rewrite Ec in Ha. injection Ha as ->. lra.
      + pose proof (strict_lt x Hs k m a c ltac:(lia) Ha Ec). lra.
    - right. split; [exact Hk|]. split; [apply inj_pos; lia|]. pose proof (strict_lt x Hs m k c a Hk Ec Ha). lra. }
  destruct (slope_pos (Z.of_nat n) (map (fun q => q - c) x) 0) as [_ P].
  - intros k b Hb. rewrite nth_error_map in Hb. destruct (nth_error x k) as [a|] eqn:Ea; [|discriminate].
    injection Hb as <-. destruct (T k a Ea) as [(_ & ? & ?)|(_ & ? & ?)]; [now apply Qmul_np|apply Qmul_nn; lra].
  - enough (0 < slope_sum (Z.of_nat n) 0 (map (fun q => q - c) x)) by lra. apply P.
    destruct (nth_error x (n - 1)) as [a|] eqn:Ea; [|apply nth_error_None in Ea; fold n in Ea; lia].
    exists (n - 1)%nat, (a - c). rewrite nth_error_map, Ea. split; [reflexivity|].
    destruct (T _ a Ea) as [(? & _)|(_ & ? & ?)]; [lia|now apply Qmul_pp].
Qed.
Lemma slope_opp n x : forall i, slope_sum n i (map Qopp x) == - slope_sum n i x.
Proof. induction x as [|a x IH]; intros i; cbn [slope_sum map]; [reflexivity|]. rewrite IH. ring. Qed.
Lemma sense_rising x : (2 <= length x)%nat -> strictly_rising x -> lr_sense x = true.
Proof. intros Hn H. unfold lr_sense. apply Qltb_lt. now apply slope_rising. Qed.
Lemma sense_falling x : (2 <= length x)%nat -> strictly_falling x -> lr_sense x = false.
Proof.
  intros Hn H. unfold lr_sense. apply Qltb_ge.
  assert (K : 0 < slope_sum (Z.of_nat (length (map Qopp x))) 0 (map Qopp x)).
  { apply slope_rising; [now rewrite map_length|]. intros k a b _ Hk Ha Hb. rewrite map_length in Hk.
    rewrite nth_error_map in Ha, Hb. destruct (nth_error x k) as [a'|] eqn:Ea; [|discriminate].
    destruct (nth_error x (S k)) as [b'|] eqn:Eb; [|discriminate]. injection Ha as <-. injection Hb as <-.
    specialize (H k a' b' ltac:(lia) Hk Ea Eb). cbv beta in H. lra. }
  rewrite map_length, slope_opp in K. lra.
Qed.

(** ** positions of the extremes *)
Lemma nth_nth_error (x : list Q) k a : nth_error x k = Some a -> nth k x 0 = a.
Proof. apply nth_error_nth. Qed.
Lemma last_nth (x : list Q) : last x 0 = nth (length x - 1) x 0.
Proof.
  induction x as [|a x IH]; [reflexivity|]. destruct x as [|b x]; [reflexivity|].
  change (last (a :: b :: x) 0) with (last (b :: x) 0). rewrite IH. cbn [length].
  replace (S (S (length x)) - 1)%nat with (S (S (length x) - 1)) by lia. reflexivity.
Qed.
Lemma rising_pos x : (2 <= length x)%nat -> strictly_rising x ->
  argmin x = 0%nat /\ argmax x = (length x - 1)%nat /\ nth 0 x 0 < nth (length x - 1) x 0.
Proof.
  intros Hn H. assert (Hne : x <> []) by (destruct x; [cbn in Hn; lia|discriminate]).
  destruct (argmin_spec x Hne) as (Hp & b & Hb & HL & HS). destruct (argmax_spec x Hne) as (Hp' & b' & Hb' & HL' & HS').
  destruct (nth_error x 0) as [a0|] eqn:E0; [|apply nth_error_None in E0; lia].
  destruct (nth_error x (length x - 1)) as [an|] eqn:En; [|apply nth_error_None in En; lia].
  split; [|split].
  - destruct (Nat.eq_dec (argmin x) 0) as [|n]; [assumption|exfalso].
    specialize (HL 0%nat a0 E0). pose proof (strict_lt x H 0 (argmin x) a0 b ltac:(lia) E0 Hb). lra.
  - destruct (Nat.eq_dec (argmax x) (length x - 1)) as [|n]; [assumption|exfalso].
    specialize (HL' _ an En). pose proof (strict_lt x H (argmax x) (length x - 1)%nat b' an ltac:(lia) Hb' En). lra.
  - rewrite (nth_nth_error _ _ _ E0), (nth_nth_error _ _ _ En). apply (strict_lt x H 0 (length x - 1)); auto; lia.
Qed.
Lemma falling_pos x : (2 <= length x)%nat -> strictly_falling x ->
  argmax x = 0%nat /\ argmin x = (length x - 1)%nat /\ nth (length x - 1) x 0 < nth 0 x 0.
Proof.
  intros Hn H. assert (Hne : x <> []) by (destruct x; [cbn in Hn; lia|discriminate]).
  destruct (argmin_spec x Hne) as (Hp & b & Hb & HL & HS). destruct (argmax_spec x Hne) as (Hp' & b' & Hb' & HL' & HS').
  destruct (nth_error x 0) as [a0|] eqn:E0; [|apply nth_error_None in E0; lia].
  destruct (nth_error x (length x - 1)) as [an|] eqn:En; [|apply nth_error_None in En; lia].
  split; [|split].
  - destruct (Nat.eq_dec (argmax x) 0) as [|n]; [assumption|exfalso].
    specialize (HL' 0%nat a0 E0). pose proof (strict_gt x H 0 (argmax x) a0 b' ltac:(lia) E0 Hb'). lra.
  - destruct (Nat.eq_dec (argmin x) (length x - 1)) as [|n]; [assumption|exfalso].
    specialize (HL _ an En). pose proof (strict_gt x H (argmin x) (length x - 1)%nat b an ltac:(lia) Hb En). lra.
  - rewrite (nth_nth_error _ _ _ E0), (nth_nth_error _ _ _ En). apply (strict_gt x H 0 (length x - 1)); auto; lia.
Qed.

(** ** the area ratio is 1/(2n), at most 1/6 *)
Lemma qnat_pred n : (1 <= n)%nat -> qnat (n - 1) == qnat n - 1.
Proof.
  intros H. unfold qnat. replace (Z.of_nat (n - 1)) with (Z.of_nat n - 1)%Z by lia.
  unfold Z.sub. rewrite inject_Z_plus. reflexivity.
Qed.
Lemma small_area (lo hi n a1 a2 : Q) (c : Q) : lo < hi -> 3 <= n -> a1 == 0 -> a2 == (1 # 2) * (hi - lo) -> (1 # 6) <= c ->
  Qeq_bool ((hi - lo) * n) 0 = false /\ Qle_bool ((a1 + a2) / ((hi - lo) * n)) c = true.
Proof.
  intros H Hn E1 E2 Hc. assert (D : 0 < (hi - lo) * n) by (apply Qmul_pp; lra). split.
  - destruct (Qeq_bool _ 0) eqn:E; [|reflexivity]. apply Qeq_bool_iff in E. lra.
  - apply Qle_bool_iff. apply Qle_shift_div_r; [exact D|]. rewrite E1, E2.
    apply Qle_trans with ((1 # 6) * ((hi - lo) * n)).
    + assert (0 <= (hi - lo) * (n - 3)) by (apply Qmul_nn; lra). lra.
    + apply Qmult_le_compat_r; [exact Hc|lra].
Qed.
Lemma qnat3 n : (3 <= n)%nat -> 3 <= qnat n.
Proof. intros H. unfold qnat, Qle, inject_Z; cbn. lia. Qed.
Lemma area_rising x c : (2 <= length x)%nat -> strictly_rising x -> (1 # 6) <= c -> nan_le (extreme_points_area x) c = true.
Proof.
  intros Hn H Hc. destruct (rising_pos x Hn H) as (E1 & E2 & Hlt). unfold extreme_points_area. cbv zeta. rewrite E1, E2.
  destruct (Nat.leb_spec 3 (length x)) as [H3|H3]; [|unfold nan_le; apply Qle_bool_iff; lra].
  rewrite last_nth. set (lo := nth 0 x 0) in *. set (hi := nth (length x - 1) x 0) in *. set (n := length x) in *.
  destruct (small_area lo hi (qnat n) (triangle_area 0 lo (qnat 0) lo (qnat (n - 1)) hi)
     (triangle_area (qnat 0) lo (qnat (n - 1)) hi (qnat n) hi) c) as [-> K]; auto.
  - now apply qnat3.
  - unfold triangle_area. setoid_replace (0 * (lo - hi) - qnat 0 * (lo - hi) + qnat (n - 1) * (lo - lo)) with 0 by (unfold qnat, inject_Z; cbn [Z.of_nat]; ring).
    reflexivity.
  - unfold triangle_area. setoid_replace (qnat 0 * (hi - hi) - qnat (n - 1) * (lo - hi) + qnat n * (lo - hi)) with (- (hi - lo)).
    + rewrite Qabs_opp, Qabs_pos by lra. reflexivity.
    + rewrite qnat_pred by lia. ring.
Qed.
Lemma area_falling x c : (2 <= length x)%nat -> strictly_falling x -> (1 # 6) <= c -> nan_le (extreme_points_area x) c = true.
Proof.
  intros Hn H Hc. destruct (falling_pos x Hn H) as (E1 & E2 & Hlt). unfold extreme_points_area. cbv zeta. rewrite E1, E2.
  destruct (Nat.leb_spec 3 (length x)) as [H3|H3]; [|unfold nan_le; apply Qle_bool_iff; lra].
  rewrite last_nth. set (hi := nth 0 x 0) in *. set (lo := nth (length x - 1) x 0) in *. set (n := length x) in *.
  destruct (small_area lo hi (qnat n) (triangle_area 0 hi (qnat (n - 1)) lo (qnat 0) hi)
     (triangle_area (qnat (n - 1)) lo (qnat 0) hi (qnat n) lo) c) as [-> K]; auto.
  - now apply qnat3.
  - unfold triangle_area. setoid_replace (0 * (lo - hi) - qnat (n - 1) * (hi - hi) + qnat 0 * (hi - lo)) with 0 by (unfold qnat, inject_Z; cbn [Z.of_nat]; ring).
    reflexivity.
  - unfold triangle_area. setoid_replace (qnat (n - 1) * (hi - lo) - qnat 0 * (lo - lo) + qnat n * (lo - hi)) with (- (hi - lo)).
    + rewrite Qabs_opp, Qabs_pos by lra. reflexivity.
    + rewrite qnat_pred by lia. ring.
Qed.
Lemma share_nil total : share [] total == 0.
Proof. unfold share. cbn [zsum]. unfold Qdiv. change (inject_Z 0) with 0. ring. Qed.
