(** Generalised Jensen-Shannon divergence and chi-square statistics of tables of counts. *)
From Coq Require Import List ZArith Bool Arith Lia Reals Lra.
From Verif Require Import Model.Arr Model.Core Model.Multi Model.Metrics Model.MultiT Model.MultiTable
  Spec.MetricsSpec Spec.MultiTableSpec Proofs.ArrP Proofs.MetricsP Proofs.MetricsQ.
Import ListNotations.
Open Scope R_scope.

Lemma xlogy_eq x y : xlogy x y = x * ln y.
Proof. unfold xlogy. destruct (Req_EM_T x 0) as [-> |]; [ring|reflexivity]. Qed.
Lemma rsum_swap {A B} (f : A -> B -> R) l m :
  rsum (map (fun a => rsum (map (f a) m)) l) = rsum (map (fun b => rsum (map (fun a => f a b) l)) m).
Proof.
  induction l as [|a l IH]; cbn [map rsum]; [symmetry; apply rsum_const0; reflexivity|]. rewrite IH, <- rsum_plus. reflexivity.
Qed.
Lemma rsum_const {A} c (l : list A) : rsum (map (fun _ => c) l) = INR (length l) * c.
Proof. induction l as [|a l IH]; [cbn; ring|]. cbn [map rsum length]. rewrite IH, S_INR. ring. Qed.
Lemma rsum_multl {A} (f : A -> R) c l : rsum (map (fun x => c * f x) l) = c * rsum (map f l).
Proof. induction l as [|x l IH]; cbn [map rsum]; [ring|]. rewrite IH. ring. Qed.
Lemma rsum_minus {A} (f g : A -> R) l : rsum (map (fun x => f x - g x) l) = rsum (map f l) - rsum (map g l).
Proof. induction l as [|x l IH]; cbn [map rsum]; [ring|]. rewrite IH. ring. Qed.
Lemma map_nth_seq {A} (d : A) l : map (fun k => nth k l d) (seq 0 (length l)) = l.
Proof.
  induction l as [|a l IH]; [reflexivity|]. cbn [length seq map nth]. f_equal. rewrite <- seq_shift, map_map. exact IH.
Qed.
Lemma rsum_ge_term {A} (f : A -> R) l a : (forall x, In x l -> 0 <= f x) -> In a l -> f a <= rsum (map f l).
Proof.
  induction l as [|b l IH]; intros H Hi; [destruct Hi|]. cbn [map rsum].
  assert (0 <= rsum (map f l)) by (apply rsum_nonneg; intros y Hy; apply in_map_iff in Hy as (c & <- & Hc); apply H; now right).
  destruct Hi as [-> |Hi]; [lra|]. specialize (IH (fun x Hx => H x (or_intror Hx)) Hi). assert (0 <= f b) by (apply H; now left). lra.
Qed.

(** * kl terms with zeros *)
Definition klz (x m : R) : R := x * ln x - x * ln m.
Definition compat (x m : R) : Prop := 0 <= x /\ 0 <= m /\ (0 < x -> 0 < m).
Lemma kl_term_klz x m : compat x m -> kl_term x m = klz x m.
Proof.
  intros (Hx & Hm & Hc). unfold kl_term, klz. destruct (Req_EM_T x 0) as [-> |N]; [ring|]. assert (0 < x) by lra. specialize (Hc H).
  unfold Rdiv. rewrite ln_mult, ln_Rinv; try assumption; [ring|now apply Rinv_0_lt_compat].
Qed.
Lemma klz_kl1 x m : 0 < x -> 0 < m -> klz x m = kl1 x m.
Proof.
  intros. unfold klz. rewrite kl1_eq by assumption. unfold Rdiv. rewrite ln_mult, ln_Rinv; try assumption; [ring|now apply Rinv_0_lt_compat].
Qed.
Lemma klz_lower x m : compat x m -> x - m <= klz x m.
Proof.
  intros (Hx & Hm & Hc). destruct (Rle_lt_or_eq_dec 0 x Hx) as [L| <-].
  - rewrite klz_kl1 by auto. apply kl1_ge; auto.
  - unfold klz. lra.
Qed.
Lemma klz_eq x m : compat x m -> klz x m = x - m -> x = m.
Proof.
  intros (Hx & Hm & Hc). destruct (Rle_lt_or_eq_dec 0 x Hx) as [L| <-].
  - rewrite klz_kl1 by auto. intros E. destruct (Req_EM_T x m) as [|N]; [assumption|]. pose proof (kl1_gt x m L (Hc L) N). lra.
  - unfold klz. lra.
Qed.
Lemma klz_self x : 0 <= x -> klz x x = 0.
Proof. intros. unfold klz. ring. Qed.
Lemma klz_super a1 b1 a2 b2 : compat a1 b1 -> compat a2 b2 -> klz (a1 + a2) (b1 + b2) <= klz a1 b1 + klz a2 b2.
Proof.
  intros (A1 & B1 & C1) (A2 & B2 & C2).
  assert (M : forall a b b', 0 < a -> 0 < b -> 0 <= b' -> klz a (b + b') <= klz a b).
  { intros a b b' Ha Hb Hb'. unfold klz. assert (ln b <= ln (b + b')).
    { destruct (Rle_lt_or_eq_dec 0 b' Hb') as [L| <-]; [left; apply ln_increasing; lra|right; f_equal; ring]. }
    assert (a * ln b <= a * ln (b + b')) by (apply Rmult_le_compat_l; lra). lra. }
  destruct (Rle_lt_or_eq_dec 0 a1 A1) as [L1| <-]; destruct (Rle_lt_or_eq_dec 0 a2 A2) as [L2| <-].
  - rewrite !klz_kl1 by (auto; specialize (C1 L1); specialize (C2 L2); lra). apply kl1_super; auto.
  - rewrite Rplus_0_r. pose proof (M a1 b1 b2 L1 (C1 L1) B2). unfold klz in *. lra.
  - rewrite Rplus_0_l. pose proof (M a2 b2 b1 L2 (C2 L2) B1). rewrite (Rplus_comm b1). unfold klz in *. lra.
  - unfold klz. lra.
Qed.
Lemma klz_super_list {A} (x m : A -> R) l : (forall a, In a l -> compat (x a) (m a)) ->
  klz (rsum (map x l)) (rsum (map m l)) <= rsum (map (fun a => klz (x a) (m a)) l) /\ compat (rsum (map x l)) (rsum (map m l)).
Proof.
  induction l as [|a l IH]; intros H; cbn [map rsum].
  - split; [unfold klz; lra|]. split; [lra|]. split; lra.
  - destruct (IH (fun b Hb => H b (or_intror Hb))) as [I1 I2]. pose proof (H a (or_introl eq_refl)) as Ha.
    pose proof (klz_super _ _ _ _ Ha I2). split; [lra|]. destruct Ha as (P & Q & R), I2 as (P' & Q' & R'). split; [lra|]. split; [lra|].
    intros L. destruct (Rle_lt_or_eq_dec 0 (x a) P) as [L1|L1]; [specialize (R L1); lra|]. assert (L2 : 0 < rsum (map x l)) by lra. specialize (R' L2). lra.
Qed.

Lemma len_pos {A} (l : list A) : l <> [] -> 0 < INR (length l).
Proof. intros H. destruct l as [|c l]; [congruence|]. apply lt_0_INR. cbn; lia. Qed.
(** * Families of distributions *)
Section JS.
Context {C K : Type}.
Variables (cs : list C) (ks : list K) (x : C -> K -> R).
Hypothesis Hne : cs <> [].
Hypothesis Hpos : forall c k, In c cs -> In k ks -> 0 <= x c k.
Hypothesis Hone : forall c, In c cs -> rsum (map (x c) ks) = 1.
Definition mix (k : K) : R := rsum (map (fun c => 1 / INR (length cs) * x c k) cs).
Definition jsg : R := rsum (map (fun c => 1 / INR (length cs) * rsum (map (fun k => klz (x c k) (mix k)) ks)) cs).

Lemma n_pos : 0 < INR (length cs).
Proof. exact (len_pos cs Hne). Qed.
Lemma w_pos : 0 < 1 / INR (length cs).
Proof. pose proof n_pos. unfold Rdiv. rewrite Rmult_1_l. now apply Rinv_0_lt_compat. Qed.
Lemma x_le_mix c k : In c cs -> In k ks -> 1 / INR (length cs) * x c k <= mix k.
Proof.
  intros Hc Hk. unfold mix. apply (rsum_ge_term (fun c => 1 / INR (length cs) * x c k) cs c); [|exact Hc].
  intros c' Hc'. apply Rmult_le_pos; [left; apply w_pos|now apply Hpos].
Qed.
Lemma mix_compat c k : In c cs -> In k ks -> compat (x c k) (mix k).
Proof.
  intros Hc Hk. pose proof (x_le_mix c k Hc Hk). pose proof w_pos. pose proof (Hpos c k Hc Hk). split; [assumption|]. split; [nra|]. intros. nra.
Qed.
Lemma w_one : rsum (map (fun _ : C => 1 / INR (length cs)) cs) = 1.
Proof. rewrite rsum_const. field. pose proof n_pos. lra. Qed.
Lemma mix_one : rsum (map mix ks) = 1.
Proof.
  unfold mix. rewrite rsum_swap. refine (eq_trans _ w_one). apply rsum_ext. intros c Hc. rewrite rsum_multl, Hone by exact Hc. ring.
Qed.
(** the expression of the code *)
Lemma jsg_entropy : jsg = entropy (map mix ks) - rsum (map (fun c => 1 / INR (length cs) * entropy (map (x c) ks)) cs).
Proof.
  unfold jsg, entropy. rewrite !map_map.
  rewrite (rsum_ext (fun k => xlogy (mix k) (mix k)) (fun k => rsum (map (fun c => 1 / INR (length cs) * (x c k * ln (mix k))) cs))).
  2:{ intros k _. rewrite xlogy_eq. generalize (ln (mix k)). intros q. unfold mix. rewrite <- rsum_mult. apply rsum_ext. intros c _. ring. }
  rewrite (rsum_swap (fun k c => 1 / INR (length cs) * (x c k * ln (mix k)))).
  rewrite (rsum_ext (fun c => 1 / INR (length cs) * - rsum (map (fun p => xlogy p p) (map (x c) ks)))
                    (fun c => -1 * (1 / INR (length cs) * rsum (map (fun k => x c k * ln (x c k)) ks)))).
  2:{ intros c _. rewrite map_map. rewrite (rsum_ext (fun k => xlogy (x c k) (x c k)) (fun k => x c k * ln (x c k))) by (intros; apply xlogy_eq). ring. }
  rewrite (rsum_multl (fun c => 1 / INR (length cs) * rsum (map (fun k => x c k * ln (x c k)) ks)) (-1)).
  rewrite (rsum_ext (fun c => 1 / INR (length cs) * rsum (map (fun k => klz (x c k) (mix k)) ks))
    (fun c => 1 / INR (length cs) * rsum (map (fun k => x c k * ln (x c k)) ks) - rsum (map (fun k => 1 / INR (length cs) * (x c k * ln (mix k))) ks))).
  - rewrite rsum_minus. ring.
  - intros c _. unfold klz. rewrite rsum_minus, rsum_multl. ring.
Qed.
Lemma jsg_term c : In c cs -> 0 <= rsum (map (fun k => klz (x c k) (mix k)) ks) <= ln (INR (length cs)) /\
  (rsum (map (fun k => klz (x c k) (mix k)) ks) = 0 -> forall k, In k ks -> x c k = mix k).
Proof.
  intros Hc.
  assert (L : rsum (map (fun k => x c k - mix k) ks) = 0) by (rewrite rsum_minus, Hone, mix_one by exact Hc; ring).
  split; [split|].
  - rewrite <- L. apply rsum_le. intros k Hk. apply klz_lower. now apply mix_compat.
  - apply Rle_trans with (rsum (map (fun k => x c k * ln (INR (length cs))) ks)).
    + apply rsum_le. intros k Hk. destruct (mix_compat c k Hc Hk) as (P & Q & S). destruct (Rle_lt_or_eq_dec 0 (x c k) P) as [G| <-]; [|unfold klz; lra].
      specialize (S G). unfold klz. rewrite <- Rmult_minus_distr_l. apply Rmult_le_compat_l; [lra|].
      assert (E : ln (x c k) <= ln (INR (length cs) * mix k)).
      { assert (H : x c k <= INR (length cs) * mix k).
        { pose proof (x_le_mix c k Hc Hk). pose proof n_pos. apply Rmult_le_reg_l with (1 / INR (length cs)); [apply w_pos|].
          replace (1 / INR (length cs) * (INR (length cs) * mix k)) with (mix k) by (field; lra). exact H. }
        destruct H as [H|H]; [left; apply ln_increasing; assumption|right; now rewrite H]. }
      rewrite ln_mult in E by (try assumption; apply n_pos). lra.
    + rewrite rsum_mult, Hone by exact Hc. lra.
  - intros E k Hk. apply klz_eq; [now apply mix_compat|].
    assert (Z : rsum (map (fun k => klz (x c k) (mix k) - (x c k - mix k)) ks) = 0) by (rewrite rsum_minus, E, L; ring).
    rewrite rsum_zero_iff in Z.
    + specialize (Z (klz (x c k) (mix k) - (x c k - mix k))). assert (klz (x c k) (mix k) - (x c k - mix k) = 0); [|lra].
      apply Z. apply in_map_iff. exists k. auto.
    + intros y Hy. apply in_map_iff in Hy as (k' & <- & Hk'). pose proof (klz_lower _ _ (mix_compat c k' Hc Hk')). lra.
Qed.
Lemma jsg_bounds : 0 <= jsg <= ln (INR (length cs)) /\ (jsg = 0 <-> forall c c' k, In c cs -> In c' cs -> In k ks -> x c k = x c' k).
Proof.
  pose proof w_pos as W. unfold jsg. split; [split|split].
  - apply rsum_nonneg. intros y Hy. apply in_map_iff in Hy as (c & <- & Hc). apply Rmult_le_pos; [lra|]. apply jsg_term, Hc.
  - apply Rle_trans with (rsum (map (fun _ : C => 1 / INR (length cs) * ln (INR (length cs))) cs)).
    + apply rsum_le. intros c Hc. apply Rmult_le_compat_l; [lra|]. apply jsg_term, Hc.
    + rewrite rsum_const. right. field. pose proof n_pos. lra.
  - intros Z c c' k Hc Hc' Hk. rewrite rsum_zero_iff in Z.
    + assert (G : forall c0, In c0 cs -> x c0 k = mix k).
      { intros c0 Hc0. apply (proj2 (jsg_term c0 Hc0)); [|exact Hk]. specialize (Z (1 / INR (length cs) * rsum (map (fun k => klz (x c0 k) (mix k)) ks))).
        assert (E : 1 / INR (length cs) * rsum (map (fun k => klz (x c0 k) (mix k)) ks) = 0) by (apply Z, in_map_iff; eauto).
        apply Rmult_integral in E as [E|E]; [lra|exact E]. }
      now rewrite (G c Hc), (G c' Hc').
    + intros y Hy. apply in_map_iff in Hy as (c0 & <- & Hc0). apply Rmult_le_pos; [lra|]. apply jsg_term, Hc0.
  - intros H. apply rsum_const0. intros c Hc. rewrite rsum_const0; [ring|]. intros k Hk.
    assert (E : mix k = x c k).
    { unfold mix. rewrite (rsum_ext (fun c0 => 1 / INR (length cs) * x c0 k) (fun _ => 1 / INR (length cs) * x c k)).
      - rewrite rsum_const. field. pose proof n_pos. lra.
      - intros c' Hc'. rewrite (H c' c k Hc' Hc Hk). reflexivity. }
    rewrite E. apply klz_self. now apply Hpos.
Qed.
End JS.

(** merging *)
Lemma rsum_concat {A} (f : A -> R) groups : rsum (map (fun g => rsum (map f g)) groups) = rsum (map f (concat groups)).
Proof. induction groups as [|g l IH]; [reflexivity|]. cbn [map rsum concat]. rewrite map_app, rsum_app, IH. reflexivity. Qed.
Lemma jsg_merge {C K} (cs : list C) (groups : list (list K)) (x : C -> K -> R) : cs <> [] ->
  (forall c k, In c cs -> In k (concat groups) -> 0 <= x c k) ->
  jsg cs groups (fun c g => rsum (map (x c) g)) <= jsg cs (concat groups) x.
Proof.
  intros Hne Hpos. unfold jsg. apply rsum_le. intros c Hc. apply Rmult_le_compat_l; [left; apply w_pos; exact Hne|].
  rewrite <- rsum_concat. apply rsum_le. intros g Hg.
  assert (E : mix cs (fun c g => rsum (map (x c) g)) g = rsum (map (mix cs x) g)).
  { unfold mix. rewrite rsum_swap. apply rsum_ext. intros c' _. symmetry. apply rsum_multl. }
  rewrite E. apply klz_super_list. intros k Hk.
  assert (Hin : In k (concat groups)) by (apply in_concat; eauto).
  exact (mix_compat cs (concat groups) x Hne Hpos c k Hc Hin).
Qed.
