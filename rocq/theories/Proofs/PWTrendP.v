From Coq Require Import List ZArith QArith Bool Lia Lqa Permutation.
From Verif Require Import Model.Arr Model.Core Model.AutoMono Model.PWTrend Spec.AutoSpec Spec.PWTrendSpec Proofs.AutoP Props.AutoProps.
Import ListNotations.
Open Scope Q_scope.

Lemma same_order_sym x z : same_order x z -> same_order z x.
Proof. intros [L H]. split; [auto|]. intros. symmetry. eapply H; eauto. Qed.

Section Tr.
  Variable R : Q -> Q -> Prop.
  Hypothesis Hle : (forall a b a' b', (a <= b <-> a' <= b') -> (b <= a <-> b' <= a') -> (R a b <-> R a' b')).
  Lemma steps_same x z i j : same_order x z -> (steps R x i j <-> steps R z i j).
  Proof.
    intros [L H].
    assert (K : forall x z, length x = length z -> (forall i j a b a' b', nth_error x i = Some a -> nth_error x j = Some b ->
      nth_error z i = Some a' -> nth_error z j = Some b' -> (a <= b <-> a' <= b')) -> steps R x i j -> steps R z i j).
    { clear x z L H. intros x z L H HS k a' b' H1 H2 Ha Hb.
      assert (k < length x)%nat by (rewrite L; apply nth_error_Some; congruence).
      assert (S k < length x)%nat by (rewrite L; apply nth_error_Some; congruence).
      destruct (nth_error x k) as [a|] eqn:Ea; [|apply nth_error_None in Ea; lia].
      destruct (nth_error x (S k)) as [b|] eqn:Eb; [|apply nth_error_None in Eb; lia].
      apply (Hle a b a' b'); [eapply H; eauto | eapply H; eauto | eapply HS; eauto]. }
    split; [apply K; auto|]. apply K; [auto|]. intros. symmetry. eapply H; eauto.
  Qed.
End Tr.

Lemma same_shapes x z : same_order x z ->
  (rising x <-> rising z) /\ (falling x <-> falling z) /\ (strictly_rising x <-> strictly_rising z) /\
  (strictly_falling x <-> strictly_falling z) /\ (constant x <-> constant z) /\ (peaked x <-> peaked z) /\ (valleyed x <-> valleyed z).
Proof.
  intros H. pose proof (proj1 H) as L. unfold rising, falling, strictly_rising, strictly_falling, constant, peaked, valleyed, up, down.
  assert (Q1 : forall i j, steps Qle x i j <-> steps Qle z i j) by (intros; apply steps_same; [tauto|auto]).
  assert (Q2 : forall i j, steps (fun a b => b <= a) x i j <-> steps (fun a b => b <= a) z i j)
    by (intros; apply (steps_same (fun a b => b <= a)); [tauto|auto]).
  assert (lt_ge : forall a b : Q, a < b <-> ~ b <= a) by (intros; split; [intros; lra | apply Qnot_le_lt]).
  rewrite <- L. split; [apply Q1|]. split; [apply Q2|]. split; [|split; [|split; [|split]]].
  - apply steps_same; auto. intros. rewrite !lt_ge. tauto.
  - apply (steps_same (fun a b => b < a)); auto. intros. rewrite !lt_ge. tauto.
  - apply steps_same; auto. intros a b a' b' E1 E2. assert (EE : forall u v : Q, u == v <-> u <= v /\ v <= u) by (intros; split; [intros; lra | intros [? ?]; lra]).
    rewrite !EE. tauto.
  - split; intros (t & ? & ? & ?); exists t; (split; [auto|]); split; first [apply Q1 | apply Q2]; auto.
  - split; intros (t & ? & ? & ?); exists t; (split; [auto|]); split; first [apply Q1 | apply Q2]; auto.
Qed.

Lemma strict_not_const x : (2 <= length x)%nat -> strictly_falling x -> ~ (strictly_rising x \/ constant x).
Proof.
  intros Hn H K. destruct (nth_error x 0) as [a|] eqn:Ea; [|apply nth_error_None in Ea; lia].
  destruct (nth_error x 1) as [b|] eqn:Eb; [|apply nth_error_None in Eb; lia].
  specialize (H 0%nat a b (Nat.le_refl _)). specialize (H ltac:(lia) Ea Eb). cbv beta in H.
  destruct K as [K|K]; specialize (K 0%nat a b (Nat.le_refl _)); specialize (K ltac:(lia) Ea Eb); cbv beta in K; lra.
Qed.

(** the request in words *)
Lemma request_cases x : x <> [] ->
  (length x = 1%nat /\ shape_request x = MNone) \/
  (length x <> 1%nat /\ (strictly_rising x \/ constant x) /\ shape_request x = MAscending) \/
  (length x <> 1%nat /\ strictly_falling x /\ ~ (strictly_rising x \/ constant x) /\ shape_request x = MDescending) \/
  (length x <> 1%nat /\ ~ (strictly_rising x \/ strictly_falling x \/ constant x) /\ peaked x /\ shape_request x = MPeak) \/
  (length x <> 1%nat /\ ~ (strictly_rising x \/ strictly_falling x \/ constant x) /\ ~ peaked x /\ valleyed x /\ shape_request x = MValley) \/
  (length x <> 1%nat /\ ~ (strictly_rising x \/ strictly_falling x \/ constant x) /\ ~ peaked x /\ ~ valleyed x /\ shape_request x = MNone).
Proof.
  intros Hx. destruct (Nat.eq_dec (length x) 1) as [E|E].
  - left. split; [auto|]. unfold shape_request, type_of_monotonic_trend. now rewrite E.
  - right. assert (Hn : (2 <= length x)%nat) by (destruct x as [|? [|? ?]]; cbn in *; congruence || lia).
    pose proof (C30_reported_trend x Hx) as R.
    assert (Z0 : (match type_of_monotonic_trend x with NAscending | NDescending | Undefined => True | _ => ~ (strictly_rising x \/ strictly_falling x \/ constant x) end)).
    { unfold type_of_monotonic_trend. destruct (Nat.eqb_spec (length x) 1); [exact I|].
      destruct (Nat.leb_spec 1 (n_peaks_valleys x)) as [Hc|Hc].
      - assert (N : ~ (strictly_rising x \/ strictly_falling x \/ constant x)) by (intros K; apply npv_zero in K; lia).
        destruct (is_peak x); [destruct (is_concave x); exact N|]. destruct (is_valley x); [destruct (is_convex x); exact N|exact N].
      - destruct (all_nonneg (diffs x)); exact I. }
    unfold shape_request. destruct (type_of_monotonic_trend x).
    + congruence.
    + left. tauto.
    + right; left. pose proof (strict_not_const x Hn R). tauto.
    + do 2 right; left. tauto.
    + do 2 right; left. tauto.
    + do 3 right; left. tauto.
    + do 3 right; left. tauto.
    + do 4 right. tauto.
Qed.

Lemma request_same_order x z : x <> [] -> same_order x z -> shape_request x = shape_request z.
Proof.
  intros Hx H. pose proof (proj1 H) as L. assert (Hz : z <> []) by (intros ->; destruct x; [congruence|discriminate]).
  destruct (same_shapes x z H) as (A1 & A2 & A3 & A4 & A5 & A6 & A7).
  pose proof (request_cases x Hx) as C. pose proof (request_cases z Hz) as D. rewrite <- L in D.
  intuition congruence.
Qed.

(** means *)
Lemma zsum_fold ys : inject_Z (zsum ys) == fold_right (fun y s => inject_Z y + s) 0 ys.
Proof. induction ys as [|y ys IH]; [reflexivity|]. cbn [zsum fold_right]. rewrite inject_Z_plus, IH. reflexivity. Qed.
Lemma zmean_is ys : ys <> [] -> is_mean (zmean ys) ys.
Proof.
  intros H. unfold is_mean, zmean. rewrite <- zsum_fold. unfold Qdiv. rewrite <- Qmult_assoc, (Qmult_comm (/ _)), Qmult_inv_r.
  - ring.
  - intros E. unfold Qeq in E. cbn in E. destruct ys; [congruence|]. cbn [length] in E. lia.
Qed.

(** samples *)
Lemma take_at_len {A} (l : list A) pos : (forall i, In i pos -> (i < length l)%nat) -> length (take_at l pos) = length pos.
Proof.
  induction pos as [|i pos IH]; intros H; [reflexivity|]. unfold take_at. cbn [flat_map]. rewrite app_length.
  destruct (nth_error l i) eqn:E; [|apply nth_error_None in E; specialize (H i (or_introl eq_refl)); lia].
  cbn [length]. change (S (length (take_at l pos)) = S (length pos)). rewrite IH; auto. intros j Hj. apply H. now right.
Qed.
Lemma take_at_app {A} (l : list A) p q : take_at l (p ++ q) = take_at l p ++ take_at l q.
Proof. unfold take_at. apply flat_map_app. Qed.
Lemma take_at_perm {A} (l : list A) p q : Permutation p q -> Permutation (take_at l p) (take_at l q).
Proof. intros H. unfold take_at. now apply Permutation_flat_map. Qed.
Lemma take_at_all {A} (l : list A) : take_at l (seq 0 (length l)) = l.
Proof.
  assert (K : forall (l pre : list A), take_at (pre ++ l) (seq (length pre) (length l)) = l).
  { clear l. induction l as [|a l IH]; intros pre; [reflexivity|]. cbn [length seq]. unfold take_at. cbn [flat_map].
    rewrite nth_error_app2 by lia. rewrite Nat.sub_diag. cbn [nth_error app].
    f_equal. change (take_at (pre ++ a :: l) (seq (S (length pre)) (length l)) = l).
    replace (pre ++ a :: l) with ((pre ++ [a]) ++ l) by (rewrite <- app_assoc; reflexivity).
    replace (S (length pre)) with (length (pre ++ [a])) by (rewrite app_length; cbn; lia). apply IH. }
  exact (K l []).
Qed.
Lemma take_at_combine {A B} (x : list A) (p : list B) pos : length x = length p ->
  combine (take_at x pos) (take_at p pos) = take_at (combine x p) pos.
Proof.
  intros L. assert (N : forall i, nth_error (combine x p) i =
    match nth_error x i, nth_error p i with Some a, Some b => Some (a, b) | _, _ => None end).
  { revert p L. induction x as [|a x IH]; intros [|b p] L [|i]; try discriminate; try reflexivity. cbn. apply IH. now injection L. }
  induction pos as [|i pos IH]; [reflexivity|]. unfold take_at in *. cbn [flat_map]. rewrite N.
  destruct (nth_error x i) eqn:E1, (nth_error p i) eqn:E2; cbn [app combine].
  - now rewrite IH.
  - apply nth_error_None in E2. assert (i < length x)%nat by (apply nth_error_Some; congruence). lia.
  - apply nth_error_None in E1. assert (i < length p)%nat by (apply nth_error_Some; congruence). lia.
  - exact IH.
Qed.

(** the model's means are the means *)
From Verif Require Import Spec.CoreSpec Proofs.CoreP.
Lemma filter_split {A} (f : A -> bool) l : Permutation (filter f l ++ filter (fun a => negb (f a)) l) l.
Proof.
  induction l as [|a l IH]; [constructor|]. cbn [filter]. destruct (f a); cbn [negb app].
  - now constructor.
  - symmetry. transitivity (a :: filter f l ++ filter (fun a => negb (f a)) l); [constructor; now symmetry|]. apply Permutation_middle.
Qed.
Lemma is_mean_perm m ys zs : Permutation ys zs -> is_mean m ys -> is_mean m zs.
Proof.
  intros H E. unfold is_mean in *. rewrite <- (Permutation_length H). rewrite E. clear E.
  induction H; cbn [fold_right]; try reflexivity.
  - now rewrite IHPermutation.
  - ring.
  - now rewrite IHPermutation1.
Qed.
Lemma is_mean_uniq m m' ys : ys <> [] -> is_mean m ys -> is_mean m' ys -> m == m'.
Proof.
  unfold is_mean. intros H E E'. rewrite <- E' in E. apply Qmult_inj_r in E; [exact E|].
  intros K. unfold Qeq in K. cbn in K. destruct ys; [congruence|]. cbn [length] in K. lia.
Qed.
Lemma filter_inside {A} (f : A -> bool) inside outside l : Permutation (inside ++ outside) l ->
  (forall a, In a inside -> f a = true) -> (forall a, In a outside -> f a = false) -> Permutation inside (filter f l).
Proof.
  intros P Hi Ho. assert (Pf : forall a b : list A, Permutation a b -> Permutation (filter f a) (filter f b)).
  { intros a b K. induction K; cbn [filter]; try constructor.
    - destruct (f x); [now constructor|auto].
    - destruct (f x), (f y); try reflexivity. constructor.
    - etransitivity; eauto. }
  apply Pf in P. rewrite filter_app in P.
  assert (E1 : filter f inside = inside).
  { clear P. induction inside as [|a r IH]; [reflexivity|]. cbn [filter]. rewrite Hi by now left. f_equal. apply IH. intros; apply Hi; now right. }
  assert (E2 : filter f outside = []).
  { clear P. induction outside as [|a r IH]; [reflexivity|]. cbn [filter]. rewrite Ho by now left. apply IH. intros; apply Ho; now right. }
  rewrite E1, E2, app_nil_r in P. exact P.
Qed.
Lemma in_bin_digitize splits x i : nondecreasing splits -> (in_bin_i splits i x <-> digitize splits x = i).
Proof.
  intros H. pose proof (digitize_in_bin splits x H) as D. split; [|intros <-; exact D].
  intros K. eapply in_bin_unique; eauto.
Qed.
Lemma bin_means_nth splits l i : (i <= length splits)%nat -> nth_error (bin_means splits l) i = Some (zmean (bin_targets splits l i)).
Proof.
  intros H. unfold bin_means. rewrite nth_error_map.
  rewrite (nth_error_nth' _ 0%nat) by (rewrite seq_length; lia). rewrite seq_nth by lia. reflexivity.
Qed.
Lemma bin_means_len splits l : length (bin_means splits l) = S (length splits).
Proof. unfold bin_means. now rewrite map_length, seq_length. Qed.
Lemma mean_in_bin_model splits l i m : nondecreasing splits -> mean_in_bin splits l i m -> m == zmean (bin_targets splits l i).
Proof.
  intros Hs (ins & out & P & Hne & Hi & Ho & Hm).
  assert (F : Permutation ins (filter (fun r => Nat.eqb (digitize splits (fst r)) i) l)).
  { apply (filter_inside _ ins out); auto; intros r Hr.
    - apply Nat.eqb_eq, in_bin_digitize; auto.
    - apply Nat.eqb_neq. intros E. apply (Ho r Hr). now apply in_bin_digitize. }
  assert (F' := Permutation_map snd F). change (Permutation (map snd ins) (bin_targets splits l i)) in F'.
  assert (N : map snd ins <> []) by (destruct ins; [congruence|discriminate]).
  apply (is_mean_uniq _ _ (bin_targets splits l i)).
  - intros E. rewrite E in F'. apply Permutation_sym, Permutation_nil in F'. congruence.
  - eapply is_mean_perm; eauto.
  - apply zmean_is. intros E. rewrite E in F'. apply Permutation_sym, Permutation_nil in F'. congruence.
Qed.
Lemma are_means_same_order splits l ms : nondecreasing splits -> are_bin_means splits l ms -> same_order (bin_means splits l) ms.
Proof.
  intros Hs [L H]. split; [now rewrite bin_means_len|]. intros i j a b a' b' Ha Hb Ha' Hb'.
  assert (i < length ms)%nat by (apply nth_error_Some; congruence). assert (j < length ms)%nat by (apply nth_error_Some; congruence).
  rewrite bin_means_nth in Ha, Hb by lia. injection Ha as <-. injection Hb as <-.
  apply H in Ha', Hb'. apply mean_in_bin_model in Ha', Hb'; auto. rewrite Ha', Hb'. tauto.
Qed.
Lemma same_order_trans x y z : same_order x y -> same_order y z -> same_order x z.
Proof.
  intros [L H] [L' H']. split; [congruence|]. intros i j a b a' b' Ha Hb Ha' Hb'.
  assert (i < length y)%nat by (rewrite L'; apply nth_error_Some; congruence).
  assert (j < length y)%nat by (rewrite L'; apply nth_error_Some; congruence).
  destruct (nth_error y i) as [u|] eqn:Eu; [|apply nth_error_None in Eu; lia].
  destruct (nth_error y j) as [v|] eqn:Ev; [|apply nth_error_None in Ev; lia].
  rewrite (H i j a b u v) by auto. eapply H'; eauto.
Qed.
