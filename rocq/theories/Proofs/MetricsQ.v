From Coq Require Import List ZArith Bool Arith Reals Lra Lia Permutation Sorting.
From Verif Require Import Model.Arr Model.Core Model.Cat Model.Metrics Spec.CoreSpec Spec.MetricsSpec Proofs.MetricsP
  Proofs.CoreP Proofs.CoreFinal.
Import ListNotations.
Open Scope R_scope.

(** ** Gini *)
Definition E (r : grow) := IZR (fst r).
Definition N (r : grow) := IZR (snd r).
Definition dif (a b : grow) : R := E a * N b - E b * N a.
Fixpoint pd (f : grow -> grow -> R) (l : list grow) : R :=
  match l with [] => 0 | a :: r => rsum (map (f a) r) + pd f r end.

Lemma rsum_dif a l : rsum (map (dif a) l) = E a * rsum (map N l) - N a * rsum (map E l).
Proof. induction l as [|b l IH]; cbn; [ring|]. rewrite IH. unfold dif. ring. Qed.
Lemma dot_cum_acc acc l : dot_cum acc l = dot_cum 0 l + 2 * acc * rsum (map E l).
Proof.
  revert acc; induction l as [|[e n] l IH]; intros acc; cbn [dot_cum map rsum]; [ring|].
  rewrite (IH (acc + IZR n)), (IH (0 + IZR n)). unfold E. cbn [fst]. ring.
Qed.
Lemma dot_cum_pd l : rsum (map E l) * rsum (map N l) - dot_cum 0 l = pd dif l.
Proof.
  induction l as [|[e n] l IH]; cbn [dot_cum map rsum pd]; [ring|]. rewrite dot_cum_acc, rsum_dif, <- IH.
  unfold E, N. cbn [fst snd]. ring.
Qed.

Lemma rsum_perm l l' : Permutation l l' -> rsum l = rsum l'.
Proof. induction 1; cbn; lra. Qed.
Lemma rsum_map_perm {A} (f : A -> R) l l' : Permutation l l' -> rsum (map f l) = rsum (map f l').
Proof. intros. apply rsum_perm. now apply Permutation_map. Qed.
Lemma rsum_ext {A} (f g : A -> R) l : (forall x, In x l -> f x = g x) -> rsum (map f l) = rsum (map g l).
Proof. intros H. f_equal. now apply map_ext_in. Qed.

Lemma pair_sum_perm f l l' : Permutation l l' -> pair_sum f l = pair_sum f l'.
Proof.
  intros H. unfold pair_sum. rewrite (rsum_map_perm _ l l' H). apply rsum_ext. intros x _. now apply rsum_map_perm.
Qed.
Lemma pair_sum_cons f a l : pair_sum f (a :: l) = f a a + rsum (map (f a) l) + rsum (map (fun b => f b a) l) + pair_sum f l.
Proof.
  unfold pair_sum. cbn [map rsum]. rewrite rsum_plus. ring.
Qed.
Lemma pair_sum_pd f l : (forall a, f a a = 0) -> (forall a b, f a b = f b a) -> pair_sum f l = 2 * pd f l.
Proof.
  intros H0 Hs. induction l as [|a l IH]; [cbn; unfold pair_sum; cbn; ring|].
  rewrite pair_sum_cons, H0, IH. cbn [pd]. rewrite (rsum_ext (fun b => f b a) (f a)) by (intros; apply Hs). ring.
Qed.
Lemma pair_sum_le f g l : (forall a b, In a l -> In b l -> f a b <= g a b) -> pair_sum f l <= pair_sum g l.
Proof. intros H. unfold pair_sum. apply rsum_le. intros a Ha. apply rsum_le. intros b Hb. now apply H. Qed.
Lemma pair_sum_prod l : pair_sum (fun a b => E a * N b + E b * N a) l = 2 * (rsum (map E l) * rsum (map N l)).
Proof.
  unfold pair_sum. rewrite (rsum_ext _ (fun a => E a * rsum (map N l) + N a * rsum (map E l))).
  - rewrite rsum_plus, !rsum_mult. ring.
  - intros a _. rewrite rsum_plus. rewrite (rsum_ext (fun x => E a * N x) (fun x => N x * E a)) by (intros; ring).
    rewrite !rsum_mult. ring.
Qed.
Lemma pd_sorted l : (forall r, In r l -> (0 <= fst r)%Z /\ (0 <= snd r)%Z /\ (0 < fst r + snd r)%Z) ->
  StronglySorted (fun a b => ner a <= ner b) l -> pd dif l = pd (fun a b => Rabs (dif a b)) l.
Proof.
  intros Hp Hs. induction Hs as [|a l Hl IH Ha]; [reflexivity|]. cbn [pd].
  rewrite IH by (intros; apply Hp; now right). f_equal. apply rsum_ext. intros b Hb.
  rewrite Rabs_pos_eq; [reflexivity|]. rewrite Forall_forall in Ha. specialize (Ha b Hb).
  destruct (Hp a (or_introl eq_refl)) as (A1 & A2 & A3). destruct (Hp b (or_intror Hb)) as (B1 & B2 & B3).
  unfold ner in Ha. apply IZR_le in A1, A2, B1, B2. apply IZR_lt in A3, B3. rewrite plus_IZR in A3, B3.
  unfold dif, E, N. set (ea := IZR (fst a)) in *. set (na := IZR (snd a)) in *. set (eb := IZR (fst b)) in *. set (nb := IZR (snd b)) in *.
  assert (na * (eb + nb) <= nb * (ea + na)); [|nra].
  apply Rmult_le_compat_r with (r := (ea + na) * (eb + nb)) in Ha; [|nra].
  replace (na / (ea + na) * ((ea + na) * (eb + nb))) with (na * (eb + nb)) in Ha by (field; lra).
  replace (nb / (eb + nb) * ((ea + na) * (eb + nb))) with (nb * (ea + na)) in Ha by (field; lra). exact Ha.
Qed.

Lemma filter_pos_sum (rows : list grow) (f : grow -> R) :
  (forall r, In r rows -> (0 <= fst r)%Z /\ (0 <= snd r)%Z) -> f (0, 0)%Z = 0 ->
  rsum (map f (filter (fun r => Z.ltb 0 (fst r + snd r)) rows)) = rsum (map f rows).
Proof.
  intros Hp Hf. induction rows as [|r rows IH]; [reflexivity|]. cbn [filter map rsum].
  destruct (Z.ltb_spec 0 (fst r + snd r)) as [H|H]; cbn [map rsum]; rewrite IH by (intros; apply Hp; now right); [reflexivity|].
  destruct (Hp r (or_introl eq_refl)). assert (r = (0, 0)%Z) by (destruct r; cbn in *; f_equal; lia). subst. rewrite Hf. ring.
Qed.

Lemma rsum_const0 {A} (f : A -> R) l : (forall x, In x l -> f x = 0) -> rsum (map f l) = 0.
Proof. induction l as [|x l IH]; intros H; cbn; [reflexivity|]. rewrite H, IH by (try (now left); intros; apply H; now right). ring. Qed.

Lemma gini_exact argsort rows : argsort_ok argsort ->
  (forall r, In r rows -> (0 <= fst r)%Z /\ (0 <= snd r)%Z) ->
  0 < IZR (zsum (evs rows)) -> 0 < IZR (zsum (nevs rows)) ->
  gini argsort rows = pair_sum (fun a b => Rabs (E a * N b - E b * N a)) rows
                      / (2 * (IZR (zsum (evs rows)) * IZR (zsum (nevs rows)))).
Proof.
  intros Hs Hp Ht Hn. unfold gini. set (fr := filter (fun r => Z.ltb 0 (fst r + snd r)) rows).
  set (ab := fun a b => Rabs (E a * N b - E b * N a)).
  assert (Eps : pair_sum ab fr = pair_sum ab rows).
  { unfold pair_sum, fr. rewrite filter_pos_sum; [|assumption|].
    - apply rsum_ext. intros a _. apply filter_pos_sum; [assumption|]. unfold ab, E, N. cbn. replace (_ - _) with 0 by ring. apply Rabs_R0.
    - apply rsum_const0. intros b _. unfold ab, E, N. cbn. replace (_ - _) with 0 by ring. apply Rabs_R0. }
  assert (Ee : IZR (zsum (evs rows)) = rsum (map E fr)).
  { unfold fr. rewrite filter_pos_sum by (try assumption; reflexivity). rewrite IZR_zsum. unfold evs. now rewrite map_map. }
  assert (En : IZR (zsum (nevs rows)) = rsum (map N fr)).
  { unfold fr. rewrite filter_pos_sum by (try assumption; reflexivity). rewrite IZR_zsum. unfold nevs. now rewrite map_map. }
  fold ab. rewrite <- Eps, Ee, En in *.
  assert (Hz : forall a, ab a a = 0) by (intros; unfold ab; replace (_ - _) with 0 by ring; apply Rabs_R0).
  assert (Hsym : forall a b, ab a b = ab b a) by (intros; unfold ab; rewrite <- Rabs_Ropp; f_equal; ring).
  destruct (Nat.leb_spec (length fr) 1) as [Hl|Hl].
  - assert (pair_sum ab fr = 0) as ->.
    { destruct fr as [|a [|b r]]; cbn in Hl; [reflexivity| |lia]. unfold pair_sum. cbn. rewrite Hz. ring. }
    unfold Rdiv. ring.
  - destruct (Hs fr) as [Hperm Hsort].
    rewrite (pair_sum_perm ab fr (argsort fr)) by now apply Permutation_sym.
    rewrite (pair_sum_pd ab) by assumption.
    assert (Hp2 : forall r, In r (argsort fr) -> (0 <= fst r)%Z /\ (0 <= snd r)%Z /\ (0 < fst r + snd r)%Z).
    { intros r Hr. apply (Permutation_in _ Hperm) in Hr. apply filter_In in Hr as [Hr Hlt]. apply Z.ltb_lt in Hlt.
      destruct (Hp r Hr). auto. }
    assert (Epd : pd ab (argsort fr) = pd dif (argsort fr)) by (symmetry; now apply pd_sorted). rewrite Epd.
    rewrite <- dot_cum_pd. rewrite (rsum_map_perm E _ fr Hperm), (rsum_map_perm N _ fr Hperm).
    change (map (fun r : Z * Z => IZR (fst r)) fr) with (map E fr). change (map (fun r : Z * Z => IZR (snd r)) fr) with (map N fr). field. lra.
Qed.

Lemma gini_range argsort rows : argsort_ok argsort ->
  (forall r, In r rows -> (0 <= fst r)%Z /\ (0 <= snd r)%Z) ->
  0 < IZR (zsum (evs rows)) -> 0 < IZR (zsum (nevs rows)) -> 0 <= gini argsort rows <= 1.
Proof.
  intros Hs Hp Ht Hn. rewrite gini_exact by assumption. set (D := IZR (zsum (evs rows)) * IZR (zsum (nevs rows))) in *.
  assert (0 < D) by (unfold D; now apply Rmult_lt_0_compat).
  assert (0 <= pair_sum (fun a b => Rabs (E a * N b - E b * N a)) rows).
  { unfold pair_sum. apply rsum_nonneg. intros x Hx. apply in_map_iff in Hx as (a & <- & _). apply rsum_nonneg.
    intros y Hy. apply in_map_iff in Hy as (b & <- & _). apply Rabs_pos. }
  assert (pair_sum (fun a b => Rabs (E a * N b - E b * N a)) rows <= 2 * D).
  { unfold D. rewrite !IZR_zsum. unfold evs, nevs. rewrite !map_map. rewrite <- pair_sum_prod. apply pair_sum_le.
    intros a b Ha Hb. destruct (Hp a Ha) as [A1 A2], (Hp b Hb) as [B1 B2]. apply IZR_le in A1, A2, B1, B2. unfold E, N.
    unfold Rabs. destruct (Rcase_abs _); nra. }
  split.
  - apply Rmult_le_pos; [assumption|]. left. apply Rinv_0_lt_compat. lra.
  - apply Rmult_le_reg_r with (2 * D); [lra|]. unfold Rdiv. rewrite Rmult_assoc, Rinv_l by lra. lra.
Qed.

(** ** shares *)
Lemma share_bounds (l : list Z) t x : counts_ok l -> t = IZR (zsum l) -> 0 < t -> In x (map (fun c => IZR c / t) l) -> 0 <= x <= 1.
Proof.
  intros Hc Et Ht Hx. apply in_map_iff in Hx as (c & <- & Hcin). assert (0 <= c)%Z by now apply Hc.
  assert (c <= zsum l)%Z by now apply zsum_pos_In. apply IZR_le in H, H0. rewrite <- Et in H0. split.
  - apply Rmult_le_pos; [assumption|left; now apply Rinv_0_lt_compat].
  - apply Rmult_le_reg_r with t; [assumption|]. unfold Rdiv. rewrite Rmult_assoc, Rinv_l by lra. lra.
Qed.
Lemma n_records_sum nev ev : length nev = length ev -> IZR (zsum (n_records nev ev)) = t_nev nev + t_ev ev.
Proof.
  unfold n_records, t_nev, t_ev. revert ev; induction nev as [|n nev IH]; intros [|e ev] H; try discriminate; cbn; [ring|].
  injection H as H. rewrite !plus_IZR, (IH ev H). ring.
Qed.
Lemma n_records_ok nev ev : counts_ok nev -> counts_ok ev -> counts_ok (n_records nev ev).
Proof.
  unfold n_records. revert nev; induction ev as [|e ev IH]; intros [|n nev] Hn He; cbn; try (intros c Hc0; contradiction).
  assert (0 <= n)%Z by (apply Hn; now left). assert (0 <= e)%Z by (apply He; now left). intros c [<-|Hc]; [lia|].
  apply (IH nev); auto; intros d Hd; [apply Hn|apply He]; now right.
Qed.

(** ** HHI *)
Lemma hhi_cons x s : hhi (x :: s) = x ^ 2 + hhi s. Proof. reflexivity. Qed.
Lemma hhi_upper s : (forall x, In x s -> 0 <= x <= 1) -> hhi s <= rsum s.
Proof.
  induction s as [|x s IH]; intros H; [cbn; lra|]. rewrite hhi_cons. cbn [rsum]. assert (0 <= x <= 1) by (apply H; now left).
  assert (hhi s <= rsum s) by (apply IH; intros; apply H; now right). nra.
Qed.
Lemma hhi_lower_gen s c : 2 * c * rsum s - INR (length s) * c ^ 2 <= hhi s.
Proof.
  induction s as [|x s IH]; [cbn; lra|]. rewrite hhi_cons. cbn [rsum length]. rewrite S_INR.
  assert (0 <= (x - c)^2) by apply pow2_ge_0. nra.
Qed.
Lemma hhi_bounds s : (forall x, In x s -> 0 <= x <= 1) -> rsum s = 1 ->
  1 / INR (length s) <= hhi s <= 1 /\ 0 <= hhi_norm s <= 1.
Proof.
  intros Hx Hs. assert (Hu : hhi s <= 1) by (rewrite <- Hs; now apply hhi_upper).
  destruct s as [|x0 s0] eqn:Es; [cbn in Hs; lra|]. rewrite <- Es in *.
  assert (Hlen : 1 <= INR (length s)) by (rewrite Es; cbn [length]; rewrite S_INR; assert (P := pos_INR (length s0)); lra).
  assert (Hl : 1 / INR (length s) <= hhi s).
  { assert (P := hhi_lower_gen s (1 / INR (length s))). rewrite Hs in P.
    replace (2 * (1 / INR (length s)) * 1 - INR (length s) * (1 / INR (length s)) ^ 2) with (1 / INR (length s)) in P by (field; lra). exact P. }
  split; [lra|]. unfold hhi_norm. destruct (Nat.eqb_spec (length s) 1) as [E1|E1]; [lra|].
  assert (2 <= INR (length s)). { replace 2 with (INR 2) by (cbn; ring). apply le_INR. rewrite Es in *. cbn in *. lia. }
  assert (1 / INR (length s) <= 1/2). { apply Rmult_le_reg_r with (INR (length s)); [lra|]. replace (1 / INR (length s) * INR (length s)) with 1 by (field; lra). lra. }
  set (n1 := 1 / INR (length s)) in *. split.
  - apply Rmult_le_pos; [lra|left; apply Rinv_0_lt_compat; lra].
  - apply Rmult_le_reg_r with (1 - n1); [lra|]. unfold Rdiv. rewrite Rmult_assoc, Rinv_l by lra. lra.
Qed.

(** ** quality score *)
Lemma q_c_pos : 0 < q_c. Proof. unfold q_c. lra. Qed.
Lemma score1_bounds iv : 0 <= iv -> 0 <= score_1 iv <= 1.
Proof.
  intros Hiv. unfold score_1. set (t := iv / q_c). assert (Hc := q_c_pos).
  assert (0 <= t) by (apply Rmult_le_pos; [assumption|left; now apply Rinv_0_lt_compat]).
  replace (iv * exp (1/2 * (1 - t ^ 2)) / q_c) with (t * exp (1/2 * (1 - t ^ 2))) by (unfold t; field; lra).
  assert (Hp := exp_pos (1/2 * (1 - t ^ 2))). split; [nra|].
  assert (E1 := exp_ineq1_le (- (1/2 * (1 - t ^ 2)))). rewrite exp_Ropp in E1.
  assert (t <= / exp (1/2 * (1 - t ^ 2))) by (assert (0 <= (t - 1) ^ 2) by apply pow2_ge_0; lra).
  apply Rmult_le_compat_r with (r := exp (1/2 * (1 - t ^ 2))) in H0; [|lra]. rewrite Rinv_l in H0 by lra. exact H0.
Qed.
Lemma score2_bounds pv : (forall p, In p pv -> 0 <= p <= 1) -> 0 <= score_2 pv <= 1.
Proof.
  unfold score_2. induction pv as [|p pv IH]; intros H; cbn; [lra|]. assert (0 <= p <= 1) by (apply H; now left).
  assert (0 <= fold_right Rmult 1 (map (fun p => 1 - p) pv) <= 1) by (apply IH; intros; apply H; now right). nra.
Qed.
Lemma prod3_bounds a b c : 0 <= a <= 1 -> 0 <= b <= 1 -> 0 <= c <= 1 -> 0 <= a * b * c <= 1.
Proof. intros. assert (0 <= a * b <= 1) by nra. nra. Qed.
Lemma quality_bounds iv pv hn : 0 <= iv -> (forall p, In p pv -> 0 <= p <= 1) -> 0 <= hn <= 1 ->
  0 <= binning_quality_score iv pv hn <= 1.
Proof. intros. apply prod3_bounds; [now apply score1_bounds|now apply score2_bounds|lra]. Qed.
Lemma cont_quality_bounds rwoe pv hn : 0 <= rwoe -> (forall p, In p pv -> 0 <= p <= 1) -> 0 <= hn <= 1 ->
  0 <= continuous_quality_score rwoe pv hn <= 1.
Proof.
  intros. apply prod3_bounds; [|now apply score2_bounds|lra]. destruct (Req_EM_T rwoe 0); [lra|].
  split; [apply Rmax_r|]. apply Rmax_lub; [|lra]. assert (0 < 1 / rwoe) by (apply div_pos; lra). lra.
Qed.

(** ** KS *)
Lemma rmax_fold l x : (forall y, In y (x :: l) -> y <= fold_left Rmax l x) /\ In (fold_left Rmax l x) (x :: l).
Proof.
  revert x; induction l as [|z l IH]; intros x; cbn [fold_left].
  - split; [intros y [<-|[]]; lra|now left].
  - destruct (IH (Rmax x z)) as [I1 I2]. split.
    + intros y [<-|[<-|Hy]].
      * eapply Rle_trans; [apply (Rmax_l x z)|apply I1; now left].
      * eapply Rle_trans; [apply (Rmax_r x z)|apply I1; now left].
      * apply I1. now right.
    + destruct I2 as [I2|I2]; [|now right; right]. rewrite <- I2. unfold Rmax. destruct (Rle_dec x z); [now right; left|now left].
Qed.
Lemma rmax_list_ub l y : In y l -> y <= rmax_list l.
Proof. destruct l as [|x l]; [intros []|]. apply rmax_fold. Qed.
Lemma rmax_list_In l : l <> [] -> In (rmax_list l) l.
Proof. destruct l as [|x l]; [congruence|]. intros _. apply rmax_fold. Qed.
Lemma rcumsum_nth acc l k v : nth_error (rcumsum acc l) k = Some v -> v = acc + rsum (firstn (S k) l).
Proof.
  revert acc k; induction l as [|x l IH]; intros acc k H; [destruct k; discriminate|].
  destruct k as [|k]; cbn in H; [injection H as <-; cbn; ring|]. apply IH in H. rewrite H. cbn [firstn rsum]. ring.
Qed.
Lemma rcumsum_length acc l : length (rcumsum acc l) = length l.
Proof. revert acc; induction l; intros; cbn; auto. Qed.
Lemma firstn_sum_bounds l k : (forall x, In x l -> 0 <= x) -> 0 <= rsum (firstn k l) <= rsum l.
Proof.
  revert k; induction l as [|x l IH]; intros [|k] H; cbn [firstn rsum]; try lra.
  - assert (0 <= rsum (x :: l)) by now apply rsum_nonneg. cbn in *. lra.
  - assert (0 <= x) by (apply H; now left). assert (P := IH k (fun y Hy => H y (or_intror Hy))). lra.
Qed.
Lemma map2_nth {A B C} (f : A -> B -> C) a b k z : nth_error (map2 f a b) k = Some z ->
  exists x y, nth_error a k = Some x /\ nth_error b k = Some y /\ z = f x y.
Proof.
  revert b k; induction a as [|x a IH]; intros [|y b] [|k] H; cbn in H; try discriminate.
  - injection H as <-. exists x, y. auto.
  - apply IH in H. exact H.
Qed.
Lemma map2_nth_Some {A B C} (f : A -> B -> C) a b k x y : nth_error a k = Some x -> nth_error b k = Some y ->
  nth_error (map2 f a b) k = Some (f x y).
Proof.
  revert b k; induction a as [|x0 a IH]; intros [|y0 b] [|k] H1 H2; cbn in *; try discriminate; [congruence|auto].
Qed.
Lemma map2_len {A B C} (f : A -> B -> C) a b : length a = length b -> length (map2 f a b) = length a.
Proof. revert b; induction a; intros [|y b] H; cbn in *; try discriminate; auto. Qed.

Lemma ks_bounds nev ev : counts_ok nev -> counts_ok ev -> 0 < t_nev nev -> 0 < t_ev ev -> 0 <= ks nev ev <= 1.
Proof.
  intros Hn He Ht1 Ht2. unfold ks. set (l := map2 _ _ _).
  assert (Hin : forall x, In x l -> 0 <= x <= 1).
  { intros x Hx. apply In_nth_error in Hx as [k Hk]. apply map2_nth in Hk as (a & b & Ha & Hb & ->).
    apply rcumsum_nth in Ha, Hb. split; [apply Rabs_pos|].
    assert (P1 := firstn_sum_bounds (p_event ev) (S k) (fun x Hx => proj1 (share_bounds ev _ x He eq_refl Ht2 Hx))).
    assert (P2 := firstn_sum_bounds (p_nonevent nev) (S k) (fun x Hx => proj1 (share_bounds nev _ x Hn eq_refl Ht1 Hx))).
    unfold p_event, p_nonevent in *. rewrite share_sum in P1, P2 by (reflexivity || lra).
    unfold Rabs. destruct (Rcase_abs _); lra. }
  destruct l as [|x0 l0] eqn:El; [cbn; lra|]. rewrite <- El in *. apply Hin. apply rmax_list_In. rewrite El. discriminate.
Qed.
(** the KS value is the largest gap between the two cumulative distributions *)
Lemma ks_is_max nev ev : length nev = length ev -> ev <> [] ->
  (forall k, (k < length ev)%nat ->
     Rabs (rsum (firstn (S k) (p_event ev)) - rsum (firstn (S k) (p_nonevent nev))) <= ks nev ev) /\
  exists k, (k < length ev)%nat /\
     ks nev ev = Rabs (rsum (firstn (S k) (p_event ev)) - rsum (firstn (S k) (p_nonevent nev))).
Proof.
  intros Hl Hne. unfold ks. set (l := map2 _ _ _).
  assert (Hlen : length l = length ev).
  { unfold l. rewrite map2_len; rewrite !rcumsum_length; unfold p_event, p_nonevent; rewrite !map_length; lia. }
  assert (Hk : forall k, (k < length ev)%nat -> nth_error l k = Some (Rabs (rsum (firstn (S k) (p_event ev)) - rsum (firstn (S k) (p_nonevent nev))))).
  { intros k Hk. unfold l.
    destruct (nth_error (rcumsum 0 (p_event ev)) k) as [a|] eqn:Ea.
    2:{ apply nth_error_None in Ea. rewrite rcumsum_length in Ea. unfold p_event in Ea. rewrite map_length in Ea. lia. }
    destruct (nth_error (rcumsum 0 (p_nonevent nev)) k) as [b|] eqn:Eb.
    2:{ apply nth_error_None in Eb. rewrite rcumsum_length in Eb. unfold p_nonevent in Eb. rewrite map_length in Eb. lia. }
    rewrite (map2_nth_Some _ _ _ _ _ _ Ea Eb). apply rcumsum_nth in Ea, Eb. subst. rewrite !Rplus_0_l. reflexivity. }
  split.
  - intros k Hlt. apply rmax_list_ub. eapply nth_error_In. now apply Hk.
  - assert (Hl0 : l <> []) by (intros E0; rewrite E0 in Hlen; destruct ev; [congruence|discriminate]).
    apply rmax_list_In in Hl0. apply In_nth_error in Hl0 as [k Hk2].
    assert (k < length ev)%nat by (rewrite <- Hlen; apply nth_error_Some; congruence).
    exists k. split; [assumption|]. rewrite Hk in Hk2 by assumption. congruence.
Qed.

(** ** WoE and event rate *)
Lemma er_woe_inverse er n e : 0 < er < 1 -> 0 < n -> 0 < e -> woe_to_er (er_to_woe er n e) n e = er.
Proof.
  intros H Hn He. unfold woe_to_er, er_to_woe. rewrite exp_ln.
  - field. repeat split; try lra; try nra.
  - assert (0 < 1 / er - 1). { assert (1 < 1 / er); [|lra]. apply Rmult_lt_reg_r with er; [lra|]. replace (1 / er * er) with 1 by (field; lra). lra. }
    apply div_pos; [nra|assumption].
Qed.
Lemma woe_er_inverse w n e : 0 < n -> 0 < e -> er_to_woe (woe_to_er w n e) n e = w /\ 0 < woe_to_er w n e < 1.
Proof.
  intros Hn He. unfold woe_to_er, er_to_woe. assert (Hw := exp_pos w).
  assert (0 < n / e) by now apply div_pos. assert (0 < n / e * exp w) by nra. split.
  - replace ((1 / (1 / (1 + n / e * exp w)) - 1) * e / n) with (exp w); [apply ln_exp|]. field. repeat split; try lra. nra.
  - split; [apply div_pos; lra|]. apply Rmult_lt_reg_r with (1 + n / e * exp w); [lra|]. unfold Rdiv at 1.
    rewrite Rmult_assoc, Rinv_l by lra. lra.
Qed.
Lemma woe_decreasing a b n e : 0 < a -> a < b -> b < 1 -> 0 < n -> 0 < e -> er_to_woe b n e < er_to_woe a n e.
Proof.
  intros Ha Hab Hb Hn He. unfold er_to_woe.
  assert (1 < 1 / b). { apply Rmult_lt_reg_r with b; [lra|]. replace (1 / b * b) with 1 by (field; lra). lra. }
  assert (1 / b < 1 / a). { apply Rmult_lt_reg_r with (a * b); [nra|]. replace (1 / b * (a * b)) with a by (field; lra). replace (1 / a * (a * b)) with b by (field; lra). exact Hab. }
  apply ln_increasing; [apply div_pos; [nra|assumption]|]. unfold Rdiv at 1 3. apply Rmult_lt_compat_r; [now apply Rinv_0_lt_compat|]. nra.
Qed.
Lemma er_row e n : (0 < e)%Z -> (0 < n)%Z -> 0 < IZR e / IZR (e + n) < 1 /\ 1 / (IZR e / IZR (e + n)) - 1 = IZR n / IZR e.
Proof.
  intros He Hn. apply IZR_lt in He, Hn. rewrite plus_IZR. split; [split|].
  - apply div_pos; lra.
  - apply Rmult_lt_reg_r with (IZR e + IZR n); [lra|]. unfold Rdiv. rewrite Rmult_assoc, Rinv_l by lra. lra.
  - field. lra.
Qed.
Lemma woe_nth nev ev k e n : nth_error nev k = Some n -> nth_error ev k = Some e ->
  nth_error (woe nev ev) k = Some (if Z.ltb 0 e && Z.ltb 0 n then ln (1 / (IZR e / IZR (e + n)) - 1) + ln (t_ev ev / t_nev nev) else 0).
Proof.
  intros Hn He. unfold woe, mask, event_rate.
  rewrite (map2_nth_Some _ _ _ _ _ _ (map2_nth_Some _ _ _ _ _ _ He Hn) (map2_nth_Some _ _ _ _ _ _ He Hn)).
  cbv beta. destruct (Z.ltb 0 e && Z.ltb 0 n); reflexivity.
Qed.
Lemma event_rate_nth nev ev k e n : nth_error nev k = Some n -> nth_error ev k = Some e ->
  nth_error (event_rate nev ev) k = Some (if Z.ltb 0 e && Z.ltb 0 n then IZR e / IZR (e + n) else 0).
Proof. intros Hn He. unfold event_rate. now rewrite (map2_nth_Some _ _ _ _ _ _ He Hn). Qed.

Lemma kept_nth {A} emp nb (l : list A) k : (emp = true \/ k < nb)%nat -> nth_error (kept emp nb l) k = nth_error l k.
Proof.
  intros H. unfold kept. destruct emp; [reflexivity|]. destruct H as [H|H]; [discriminate|].
  revert nb k H; induction l as [|x l IH]; intros [|nb] [|k] H; cbn; try reflexivity; try lia. apply IH. lia.
Qed.

(** metric values of transform = displayed values of the table *)
Lemma metric_values_table m emp nb nev ev k : length nev = length ev -> 0 < t_nev nev -> 0 < t_ev ev ->
  (emp = true \/ k < nb)%nat ->
  nth_error (metric_values m emp nb nev ev) k =
  nth_error (match m with BWoe => woe nev ev | BEventRate => event_rate nev ev end) k.
Proof.
  intros Hl Hn He Hk.
  destruct (nth_error nev k) as [n|] eqn:En.
  - destruct (nth_error ev k) as [e|] eqn:Ee; [|apply nth_error_None in Ee; assert (k < length nev)%nat by (apply nth_error_Some; congruence); lia].
    destruct m; unfold metric_values, tr_woe, tr_event_rate.
    + rewrite (woe_nth _ _ _ _ _ En Ee). rewrite (map2_nth_Some _ _ _ k e n) by (rewrite kept_nth; assumption).
      destruct (Z.ltb_spec 0 e); cbn [andb]; [|reflexivity]. destruct (Z.ltb_spec 0 n); [|reflexivity]. f_equal.
      destruct (er_row e n H H0) as [_ E1]. unfold er_to_woe. rewrite E1.
      rewrite <- ln_mult; [f_equal; unfold Rdiv; ring| |now apply div_pos]. apply div_pos; now apply IZR_lt.
    + rewrite (event_rate_nth _ _ _ _ _ En Ee). now rewrite (map2_nth_Some _ _ _ k e n) by (rewrite kept_nth; assumption).
  - assert (Hnone : forall (f : Z -> Z -> R), nth_error (map2 f (kept emp nb ev) (kept emp nb nev)) k = None).
    { intros f. destruct (nth_error (map2 f _ _) k) as [z|] eqn:Ez; [|reflexivity]. apply map2_nth in Ez as (x & y & _ & Hy & _).
      rewrite kept_nth in Hy by assumption. congruence. }
    assert (Hnone2 : forall (f : Z -> Z -> R), nth_error (map2 f ev nev) k = None).
    { intros f. destruct (nth_error (map2 f _ _) k) as [z|] eqn:Ez; [|reflexivity]. apply map2_nth in Ez as (x & y & _ & Hy & _). congruence. }
    destruct m; unfold metric_values, tr_woe, tr_event_rate; rewrite Hnone.
    + unfold woe. destruct (nth_error (map2 _ (mask nev ev) _) k) as [z|] eqn:Ez; [|reflexivity].
      apply map2_nth in Ez as (x & y & _ & Hy & _). unfold event_rate in Hy. rewrite Hnone2 in Hy. discriminate.
    + unfold event_rate. now rewrite Hnone2.
Qed.
