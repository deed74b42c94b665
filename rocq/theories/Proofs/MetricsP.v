From Coq Require Import List ZArith Bool Arith Reals Lra Lia Permutation Sorting.
From Verif Require Import Model.Arr Model.Core Model.Cat Model.Metrics Spec.MetricsSpec.
Import ListNotations.
Open Scope R_scope.

(** ** logarithm *)
Lemma ln_le_sub1 z : 0 < z -> ln z <= z - 1.
Proof. intros H. assert (E := exp_ineq1_le (ln z)). rewrite exp_ln in E by exact H. lra. Qed.
Lemma ln_lt_sub1 z : 0 < z -> z <> 1 -> ln z < z - 1.
Proof.
  intros H Hn. assert (ln z <> 0). { intros E. apply Hn. rewrite <- (exp_ln z H), E. apply exp_0. }
  assert (E := exp_ineq1 (ln z) H0). rewrite exp_ln in E by exact H. lra.
Qed.
Lemma div_pos x y : 0 < x -> 0 < y -> 0 < x / y.
Proof. intros; unfold Rdiv; apply Rmult_lt_0_compat; [assumption|now apply Rinv_0_lt_compat]. Qed.
Lemma ln_inv_div x y : 0 < x -> 0 < y -> ln (y / x) = - ln (x / y).
Proof. intros. rewrite <- ln_Rinv by now apply div_pos. f_equal. field. lra. Qed.

Lemma kl1_eq x y : 0 < x -> kl1 x y = x * ln (x / y).
Proof. intros. unfold kl1, xlogy. destruct (Req_EM_T x 0); [lra|reflexivity]. Qed.
Lemma jeffrey1_eq x y : jeffrey1 x y = (x - y) * ln (x / y).
Proof. unfold jeffrey1, xlogy. destruct (Req_EM_T (x - y) 0) as [E|]; [rewrite E; ring|reflexivity]. Qed.

Lemma kl1_ge x m : 0 < x -> 0 < m -> x - m <= kl1 x m.
Proof.
  intros Hx Hm. rewrite kl1_eq by assumption. rewrite (ln_inv_div m x) by assumption.
  assert (H := ln_le_sub1 (m / x) (div_pos _ _ Hm Hx)).
  assert (x * ln (m / x) <= x * (m / x - 1)) by (apply Rmult_le_compat_l; lra).
  replace (x * (m / x - 1)) with (m - x) in H0 by (field; lra). lra.
Qed.
Lemma kl1_gt x m : 0 < x -> 0 < m -> x <> m -> x - m < kl1 x m.
Proof.
  intros Hx Hm Hn. rewrite kl1_eq by assumption. rewrite (ln_inv_div m x) by assumption.
  assert (H : ln (m / x) < m / x - 1).
  { apply ln_lt_sub1; [now apply div_pos|]. intros E. apply Hn. assert (m = 1 * x) by (rewrite <- E; field; lra). lra. }
  assert (x * ln (m / x) < x * (m / x - 1)) by (apply Rmult_lt_compat_l; lra).
  replace (x * (m / x - 1)) with (m - x) in H0 by (field; lra). lra.
Qed.
Lemma kl1_self x : 0 < x -> kl1 x x = 0.
Proof. intros. rewrite kl1_eq by assumption. replace (x / x) with 1 by (field; lra). rewrite ln_1. ring. Qed.

(** log-sum inequality *)
Lemma kl1_super a1 b1 a2 b2 : 0 < a1 -> 0 < b1 -> 0 < a2 -> 0 < b2 ->
  kl1 (a1 + a2) (b1 + b2) <= kl1 a1 b1 + kl1 a2 b2.
Proof.
  intros. set (A := a1 + a2). set (B := b1 + b2). assert (0 < A) by (unfold A; lra). assert (0 < B) by (unfold B; lra).
  assert (0 < A / B) by now apply div_pos.
  assert (forall a b, 0 < a -> 0 < b -> a * ln (A / B) <= kl1 a b + (b * (A / B) - a)).
  { intros a b Ha Hb. assert (Hk := kl1_ge a (b * (A / B)) Ha ltac:(nra)). rewrite kl1_eq in * by assumption.
    assert (E : a / b = a / (b * (A / B)) * (A / B)) by (field; lra).
    rewrite E. rewrite ln_mult; [nra| |assumption]. apply div_pos; [assumption|nra]. }
  assert (P1 := H6 a1 b1 H H0). assert (P2 := H6 a2 b2 H1 H2). rewrite (kl1_eq A B) by assumption.
  assert (E : b1 * (A / B) + b2 * (A / B) = A). { unfold B. field. unfold B in *. lra. }
  unfold A in *. lra.
Qed.

(** ** the four divergences *)
Lemma jeffrey_kl x y : 0 < x -> 0 < y -> jeffrey1 x y = kl1 x y + kl1 y x.
Proof. intros. rewrite jeffrey1_eq, !kl1_eq by assumption. rewrite (ln_inv_div x y) by assumption. ring. Qed.

Record divergence_fn (phi : R -> R -> R) : Prop := {
  d_nonneg : forall x y, 0 < x -> 0 < y -> 0 <= phi x y;
  d_zero : forall x y, 0 < x -> 0 < y -> (phi x y = 0 <-> x = y);
  d_super : forall a1 b1 a2 b2, 0 < a1 -> 0 < b1 -> 0 < a2 -> 0 < b2 ->
     phi (a1 + a2) (b1 + b2) <= phi a1 b1 + phi a2 b2 }.

Lemma jeffrey_div : divergence_fn jeffrey1.
Proof.
  split.
  - intros. rewrite jeffrey_kl by assumption. assert (P := kl1_ge x y H H0). assert (Q := kl1_ge y x H0 H). lra.
  - intros x y Hx Hy. rewrite jeffrey_kl by assumption. split.
    + intros E. destruct (Req_EM_T x y) as [|Hn]; [assumption|].
      assert (P := kl1_gt x y Hx Hy Hn). assert (Q := kl1_gt y x Hy Hx (not_eq_sym Hn)). lra.
    + intros ->. rewrite kl1_self by assumption. ring.
  - intros. rewrite !jeffrey_kl by lra. assert (P := kl1_super a1 b1 a2 b2). assert (Q := kl1_super b1 a1 b2 a2). lra.
Qed.
Lemma js_div : divergence_fn js1.
Proof.
  split; unfold js1.
  - intros. set (m := 1/2 * (x + y)). assert (0 < m) by (unfold m; lra).
    assert (P := kl1_ge x m H H1). assert (Q := kl1_ge y m H0 H1). unfold m in *. lra.
  - intros x y Hx Hy. set (m := 1/2 * (x + y)). assert (0 < m) by (unfold m; lra). split.
    + intros E. destruct (Req_EM_T x y) as [|Hn]; [assumption|].
      assert (P := kl1_gt x m Hx H). assert (Q := kl1_gt y m Hy H). unfold m in *. assert (x <> 1/2*(x+y)) by lra.
      assert (y <> 1/2*(x+y)) by lra. specialize (P H0). specialize (Q H1). lra.
    + intros ->. replace m with y by (unfold m; lra). rewrite kl1_self by assumption. ring.
  - intros. set (m1 := 1/2 * (a1 + b1)). set (m2 := 1/2 * (a2 + b2)).
    replace (1/2 * (a1 + a2 + (b1 + b2))) with (m1 + m2) by (unfold m1, m2; lra).
    assert (0 < m1) by (unfold m1; lra). assert (0 < m2) by (unfold m2; lra).
    assert (P := kl1_super a1 m1 a2 m2 H H3 H1 H4). assert (Q := kl1_super b1 m1 b2 m2 H0 H3 H2 H4). lra.
Qed.
Lemma hell_expand x y : 0 <= x -> 0 <= y -> hellinger1 x y = 1/2 * (x + y) - sqrt x * sqrt y.
Proof. intros. unfold hellinger1. assert (P := sqrt_sqrt x H). assert (Q := sqrt_sqrt y H0). nra. Qed.
Lemma sq_nonneg_zero a : a ^ 2 = 0 -> a = 0.
Proof. intros. nra. Qed.
Lemma hellinger_div : divergence_fn hellinger1.
Proof.
  split.
  - intros. unfold hellinger1. assert (0 <= (sqrt x - sqrt y) ^ 2) by apply pow2_ge_0. lra.
  - intros x y Hx Hy. unfold hellinger1. split.
    + intros E. assert (sqrt x - sqrt y = 0) by (apply sq_nonneg_zero; lra). apply sqrt_inj; lra.
    + intros ->. ring.
  - intros. rewrite !hell_expand by lra.
    assert (sqrt a1 * sqrt b1 + sqrt a2 * sqrt b2 <= sqrt (a1 + a2) * sqrt (b1 + b2)); [|lra].
    rewrite <- (sqrt_mult (a1 + a2) (b1 + b2)) by lra. apply Rsqr_incr_0_var; [|apply sqrt_pos].
    unfold Rsqr at 2. rewrite sqrt_sqrt by nra.
    assert (P1 := sqrt_sqrt a1 (Rlt_le _ _ H)). assert (P2 := sqrt_sqrt b1 (Rlt_le _ _ H0)).
    assert (P3 := sqrt_sqrt a2 (Rlt_le _ _ H1)). assert (P4 := sqrt_sqrt b2 (Rlt_le _ _ H2)).
    unfold Rsqr. set (s := sqrt a1) in *. set (t := sqrt b1) in *. set (u := sqrt a2) in *. set (v := sqrt b2) in *.
    rewrite <- P1, <- P2, <- P3, <- P4. assert (0 <= (s * v - t * u)^2) by apply pow2_ge_0. nra.
Qed.
Lemma triangular_div : divergence_fn triangular1.
Proof.
  split; unfold triangular1.
  - intros. unfold Rdiv. apply Rmult_le_pos; [apply pow2_ge_0|left; apply Rinv_0_lt_compat; lra].
  - intros x y Hx Hy. split.
    + intros E. assert (x - y = 0); [|lra]. apply sq_nonneg_zero.
      replace ((x - y)^2) with ((x - y)^2 / (x + y) * (x + y)) by (field; lra). rewrite E. ring.
    + intros ->. unfold Rdiv. replace (y - y) with 0 by ring. ring.
  - intros. set (d1 := a1 - b1). set (d2 := a2 - b2). set (s1 := a1 + b1). set (s2 := a2 + b2).
    replace (a1 + a2 - (b1 + b2)) with (d1 + d2) by (unfold d1, d2; ring).
    replace (a1 + a2 + (b1 + b2)) with (s1 + s2) by (unfold s1, s2; ring).
    assert (0 < s1) by (unfold s1; lra). assert (0 < s2) by (unfold s2; lra).
    apply Rminus_le. replace ((d1 + d2) ^ 2 / (s1 + s2) - (d1 ^ 2 / s1 + d2 ^ 2 / s2))
      with (- ((d1 * s2 - d2 * s1) ^ 2 / (s1 * s2 * (s1 + s2)))) by (field; lra).
    assert (0 <= (d1 * s2 - d2 * s1) ^ 2 / (s1 * s2 * (s1 + s2))); [|lra].
    unfold Rdiv. apply Rmult_le_pos; [apply pow2_ge_0|]. left. apply Rinv_0_lt_compat.
    repeat apply Rmult_lt_0_compat; lra.
Qed.

Lemma js_upper x y : 0 < x -> 0 < y -> js1 x y <= (1/2) * (x + y) * ln 2.
Proof.
  intros. unfold js1. set (m := 1/2 * (x + y)). assert (0 < m) by (unfold m; lra).
  assert (forall a b, 0 < a -> 0 < b -> m = 1/2*(a+b) -> kl1 a m <= a * ln 2).
  { intros a b Ha Hb Em. rewrite kl1_eq by assumption. apply Rmult_le_compat_l; [lra|].
    assert (a / m <= 2). { apply Rmult_le_reg_r with m; [lra|]. replace (a / m * m) with a by (field; lra). lra. }
    destruct H2 as [H2|H2]; [left; apply ln_increasing; [now apply div_pos|assumption]|right; now rewrite H2]. }
  assert (P := H2 x y H H0 eq_refl). assert (Q := H2 y x H0 H ltac:(unfold m; ring)). unfold m in *. lra.
Qed.
Lemma hellinger_upper x y : 0 < x -> 0 < y -> hellinger1 x y <= (1/2) * (x + y).
Proof. intros. rewrite hell_expand by lra. assert (0 <= sqrt x * sqrt y) by (apply Rmult_le_pos; apply sqrt_pos). lra. Qed.
Lemma triangular_upper x y : 0 < x -> 0 < y -> triangular1 x y <= x + y.
Proof.
  intros. unfold triangular1. apply Rmult_le_reg_r with (x + y); [lra|].
  replace ((x - y) ^ 2 / (x + y) * (x + y)) with ((x-y)^2) by (field; lra). nra.
Qed.

(** ** sums *)
Lemma rsum_app a b : rsum (a ++ b) = rsum a + rsum b.
Proof. induction a as [|x a IH]; cbn; [ring|]. rewrite IH. ring. Qed.
Lemma rsum_nonneg l : (forall x, In x l -> 0 <= x) -> 0 <= rsum l.
Proof. induction l as [|x l IH]; intros H; cbn; [lra|]. assert (0 <= x) by (apply H; now left).
  assert (0 <= rsum l) by (apply IH; intros; apply H; now right). lra. Qed.
Lemma rsum_zero_iff l : (forall x, In x l -> 0 <= x) -> (rsum l = 0 <-> forall x, In x l -> x = 0).
Proof.
  induction l as [|x l IH]; intros H; cbn; [tauto|].
  assert (0 <= x) by (apply H; now left). assert (Hl : forall y, In y l -> 0 <= y) by (intros; apply H; now right).
  assert (0 <= rsum l) by now apply rsum_nonneg. specialize (IH Hl). split.
  - intros E. assert (x = 0) by lra. assert (E2 : rsum l = 0) by lra. rewrite IH in E2.
    intros y [ <- |Hy]; [lra|now apply E2].
  - intros E. assert (x = 0) by (apply E; now left). assert (rsum l = 0) by (apply IH; intros; apply E; now right). lra.
Qed.
Lemma IZR_zsum l : IZR (zsum l) = rsum (map IZR l).
Proof. induction l as [|x l IH]; cbn [zsum map rsum]; [reflexivity|]. rewrite plus_IZR, IH. reflexivity. Qed.
Lemma rsum_scale c l : rsum (map (fun x => x * c) l) = rsum l * c.
Proof. induction l as [|x l IH]; cbn in *; [ring|]. rewrite IH. ring. Qed.
Lemma rsum_le {A} (f g : A -> R) l : (forall x, In x l -> f x <= g x) -> rsum (map f l) <= rsum (map g l).
Proof.
  induction l as [|x l IH]; intros H; cbn; [lra|]. assert (f x <= g x) by (apply H; now left).
  assert (rsum (map f l) <= rsum (map g l)) by (apply IH; intros; apply H; now right). lra.
Qed.
Lemma rsum_plus {A} (f g : A -> R) l : rsum (map (fun x => f x + g x) l) = rsum (map f l) + rsum (map g l).
Proof. induction l as [|x l IH]; cbn in *; [ring|]. rewrite IH. ring. Qed.
Lemma rsum_mult {A} (f : A -> R) c l : rsum (map (fun x => f x * c) l) = rsum (map f l) * c.
Proof. induction l as [|x l IH]; cbn in *; [ring|]. rewrite IH. ring. Qed.
Lemma zsum_nonneg l : counts_ok l -> (0 <= zsum l)%Z.
Proof. induction l as [|x l IH]; intros H; cbn; [lia|]. assert (0 <= x)%Z by (apply H; now left).
  assert (0 <= zsum l)%Z by (apply IH; intros c Hc; apply H; now right). lia. Qed.
Lemma map2_map_rows {C} (f : Z -> Z -> C) rows : map2 f (evs rows) (nevs rows) = map (fun r => f (fst r) (snd r)) rows.
Proof. induction rows as [|[e n] r IH]; cbn; [reflexivity|]. unfold evs, nevs in *. cbn in *. now rewrite IH. Qed.
Lemma rows_of_lists nev ev : length nev = length ev -> exists rows, ev = evs rows /\ nev = nevs rows.
Proof.
  revert ev; induction nev as [|n nev IH]; intros [|e ev] H; try discriminate; [exists []; now split|].
  destruct (IH ev) as (rows & -> & ->); [now injection H|]. exists ((e, n) :: rows). now split.
Qed.

(** ** divergence of a table *)
Definition cell (phi : R -> R -> R) (te tn : R) (r : grow) : R :=
  if Z.ltb 0 (fst r) && Z.ltb 0 (snd r) then phi (IZR (fst r) / te) (IZR (snd r) / tn) else 0.
Lemma div_rows_cells phi rows : div_rows (nevs rows) (evs rows) phi = map (cell phi (t_ev (evs rows)) (t_nev (nevs rows))) rows.
Proof. unfold div_rows. rewrite map2_map_rows. reflexivity. Qed.
Lemma cell_pos phi te tn r : 0 < te -> 0 < tn -> both_classes r ->
  0 < IZR (fst r) / te /\ 0 < IZR (snd r) / tn /\ cell phi te tn r = phi (IZR (fst r) / te) (IZR (snd r) / tn).
Proof.
  intros Ht Hn [H1 H2]. split; [apply div_pos; [now apply IZR_lt|assumption]|]. split; [apply div_pos; [now apply IZR_lt|assumption]|].
  unfold cell. apply Z.ltb_lt in H1, H2. now rewrite H1, H2.
Qed.
Lemma cell_cases phi te tn r : both_classes r \/ cell phi te tn r = 0.
Proof.
  unfold cell, both_classes. destruct (Z.ltb_spec 0 (fst r)), (Z.ltb_spec 0 (snd r)); cbn; auto.
Qed.
Lemma cell_nonneg phi te tn r : divergence_fn phi -> 0 < te -> 0 < tn -> 0 <= cell phi te tn r.
Proof.
  intros Hd Ht Hn. destruct (cell_cases phi te tn r) as [Hb| ->]; [|lra].
  destruct (cell_pos phi te tn r Ht Hn Hb) as (A & B & ->). now apply (d_nonneg _ Hd).
Qed.

Lemma table_div_nonneg phi rows : divergence_fn phi -> 0 < t_ev (evs rows) -> 0 < t_nev (nevs rows) ->
  0 <= rsum (div_rows (nevs rows) (evs rows) phi) /\
  (rsum (div_rows (nevs rows) (evs rows) phi) = 0 <->
   forall r, In r rows -> both_classes r -> IZR (fst r) / t_ev (evs rows) = IZR (snd r) / t_nev (nevs rows)).
Proof.
  intros Hd Ht Hn. rewrite div_rows_cells. set (te := t_ev (evs rows)) in *. set (tn := t_nev (nevs rows)) in *. clearbody te tn.
  assert (Hnn : forall x, In x (map (cell phi te tn) rows) -> 0 <= x).
  { intros x Hx. apply in_map_iff in Hx as (r & <- & _). now apply cell_nonneg. }
  split; [now apply rsum_nonneg|]. rewrite rsum_zero_iff by assumption. split.
  - intros H r Hr Hb. destruct (cell_pos phi te tn r Ht Hn Hb) as (A & B & E).
    apply (d_zero _ Hd); try assumption. rewrite <- E. apply H. now apply in_map.
  - intros H x Hx. apply in_map_iff in Hx as (r & <- & Hr). destruct (cell_cases phi te tn r) as [Hb|E]; [|exact E].
    destruct (cell_pos phi te tn r Ht Hn Hb) as (A & B & ->). apply (d_zero _ Hd); try assumption. now apply H.
Qed.

Lemma cell_upper phi c te tn r : 0 <= c -> 0 < te -> 0 < tn -> (0 <= fst r)%Z -> (0 <= snd r)%Z ->
  (forall x y, 0 < x -> 0 < y -> phi x y <= c * (x + y)) ->
  cell phi te tn r <= c * (IZR (fst r) / te + IZR (snd r) / tn).
Proof.
  intros Hc Ht Hn H1 H2 Hu. destruct (cell_cases phi te tn r) as [Hb|E].
  - destruct (cell_pos phi te tn r Ht Hn Hb) as (A & B & ->). now apply Hu.
  - rewrite E. apply Rmult_le_pos; [assumption|].
    assert (0 <= IZR (fst r) / te) by (apply Rmult_le_pos; [now apply IZR_le|left; now apply Rinv_0_lt_compat]).
    assert (0 <= IZR (snd r) / tn) by (apply Rmult_le_pos; [now apply IZR_le|left; now apply Rinv_0_lt_compat]). lra.
Qed.
Lemma share_sum (l : list Z) t : t = IZR (zsum l) -> t <> 0 -> rsum (map (fun c => IZR c / t) l) = 1.
Proof.
  intros E Hn. unfold Rdiv. rewrite (rsum_mult IZR (/ t) l), <- IZR_zsum, <- E. now field.
Qed.
Lemma rsum_map_map {A B} (f : A -> B) (g : B -> R) l : rsum (map g (map f l)) = rsum (map (fun x => g (f x)) l).
Proof. now rewrite map_map. Qed.

Lemma table_div_upper phi c rows : 0 <= c -> 0 < t_ev (evs rows) -> 0 < t_nev (nevs rows) ->
  counts_ok (evs rows) -> counts_ok (nevs rows) ->
  (forall x y, 0 < x -> 0 < y -> phi x y <= c * (x + y)) ->
  rsum (div_rows (nevs rows) (evs rows) phi) <= c * 2.
Proof.
  intros Hc Ht Hn He Hne Hu. rewrite div_rows_cells.
  set (te := t_ev (evs rows)) in *. set (tn := t_nev (nevs rows)) in *.
  eapply Rle_trans; [apply (rsum_le _ (fun r => (IZR (fst r) / te + IZR (snd r) / tn) * c))|].
  - intros r Hr. rewrite (Rmult_comm _ c). apply cell_upper; auto; [apply He|apply Hne]; unfold evs, nevs; now apply in_map.
  - rewrite rsum_mult, rsum_plus.
    rewrite <- (rsum_map_map fst (fun c => IZR c / te)), <- (rsum_map_map snd (fun c => IZR c / tn)).
    fold (evs rows) (nevs rows). rewrite !share_sum; try reflexivity; try lra.
Qed.

(** ** merging *)
Lemma zsum_pos_In l x : counts_ok l -> In x l -> (x <= zsum l)%Z.
Proof.
  induction l as [|y l IH]; intros H Hx; [contradiction|]. cbn. assert (0 <= y)%Z by (apply H; now left).
  assert (counts_ok l) by (intros c Hc; apply H; now right). assert (0 <= zsum l)%Z by now apply zsum_nonneg.
  destruct Hx as [ -> |Hx]; [lia|]. specialize (IH H1 Hx). lia.
Qed.
Lemma merge_group phi te tn g : divergence_fn phi -> 0 < te -> 0 < tn -> g <> [] ->
  (forall r, In r g -> both_classes r) ->
  cell phi te tn (zsum (evs g), zsum (nevs g)) <= rsum (map (cell phi te tn) g) /\
  both_classes (zsum (evs g), zsum (nevs g)).
Proof.
  intros Hd Ht Hn. induction g as [|r g IH]; intros Hne Hb; [congruence|].
  assert (Hr : both_classes r) by (apply Hb; now left).
  destruct g as [|r2 g].
  - cbn. destruct r as [e n]. cbn. rewrite !Z.add_0_r. split; [lra|exact Hr].
  - set (g' := r2 :: g) in *. destruct IH as [IH1 IH2]; [discriminate|intros; apply Hb; now right|].
    set (s := (zsum (evs g'), zsum (nevs g'))) in *.
    assert (Hs : both_classes (zsum (evs (r :: g')), zsum (nevs (r :: g')))).
    { destruct Hr as [A B], IH2 as [C D]. unfold s in *. cbn [fst snd evs nevs map zsum] in *. split; cbn [fst snd]; unfold evs, nevs in *; lia. }
    split; [|exact Hs].
    destruct (cell_pos phi te tn _ Ht Hn Hs) as (_ & _ & E). rewrite E.
    destruct (cell_pos phi te tn _ Ht Hn Hr) as (A1 & B1 & E1). destruct (cell_pos phi te tn _ Ht Hn IH2) as (A2 & B2 & E2).
    cbn [map rsum]. rewrite E1. rewrite E2 in IH1.
    assert (P := d_super _ Hd _ _ _ _ A1 B1 A2 B2).
    unfold s in *. cbn [fst snd] in *. change (evs (r :: g')) with (fst r :: evs g'). change (nevs (r :: g')) with (snd r :: nevs g').
    cbn [zsum]. rewrite !plus_IZR.
    replace ((IZR (fst r) + IZR (zsum (evs g'))) / te) with (IZR (fst r) / te + IZR (zsum (evs g')) / te) by (field; lra).
    replace ((IZR (snd r) + IZR (zsum (nevs g'))) / tn) with (IZR (snd r) / tn + IZR (zsum (nevs g')) / tn) by (field; lra).
    lra.
Qed.
Lemma zsum_concat_map (f : grow -> Z) groups :
  zsum (map f (concat groups)) = zsum (map (fun g => zsum (map f g)) groups).
Proof.
  induction groups as [|g gs IH]; [reflexivity|]. cbn [concat map zsum]. rewrite map_app.
  assert (forall a b, zsum (a ++ b) = (zsum a + zsum b)%Z) as Happ.
  { induction a as [|x a IHa]; intros b; cbn; [lia|]. rewrite IHa. lia. }
  now rewrite Happ, IH.
Qed.
Lemma merge_totals groups :
  zsum (evs (merge_rows groups)) = zsum (evs (concat groups)) /\ zsum (nevs (merge_rows groups)) = zsum (nevs (concat groups)).
Proof. unfold merge_rows, evs, nevs. rewrite !map_map. cbn [fst snd]. now rewrite !zsum_concat_map. Qed.

Lemma table_div_merge phi groups : divergence_fn phi ->
  0 < t_ev (evs (concat groups)) -> 0 < t_nev (nevs (concat groups)) ->
  (forall g, In g groups -> (exists r, g = [r]) \/ (g <> [] /\ forall r, In r g -> both_classes r)) ->
  rsum (div_rows (nevs (merge_rows groups)) (evs (merge_rows groups)) phi) <=
  rsum (div_rows (nevs (concat groups)) (evs (concat groups)) phi).
Proof.
  intros Hd Ht Hn Hg. rewrite !div_rows_cells. destruct (merge_totals groups) as [E1 E2].
  unfold t_ev, t_nev in *. rewrite E1, E2. set (te := IZR (zsum (evs (concat groups)))) in *.
  set (tn := IZR (zsum (nevs (concat groups)))) in *. clearbody te tn. clear E1 E2.
  induction groups as [|g gs IH]; cbn [concat merge_rows map rsum]; [lra|].
  rewrite map_app, rsum_app. fold (merge_rows gs).
  assert (IH' := IH (fun g' Hg' => Hg g' (or_intror Hg'))).
  assert (cell phi te tn (zsum (evs g), zsum (nevs g)) <= rsum (map (cell phi te tn) g)); [|lra].
  destruct (Hg g (or_introl eq_refl)) as [[r ->]|[Hne Hb]].
  - destruct r as [e n]. cbn. rewrite !Z.add_0_r. lra.
  - now apply merge_group.
Qed.
