(** C44: classification and regression metrics (optbinning/metrics). *)
From Coq Require Import List ZArith QArith Qabs Bool Lia Lqa Sorting Permutation.
From Verif Require Import Model.Arr Model.Classif Model.Regression Spec.ClassifSpec Proofs.ClassifP Proofs.RegressionP.
Import ListNotations.
Open Scope Z_scope.

(** ** Gini *)
Lemma n_event_len d : n_event d = Z.of_nat (length (events d)). Proof. now rewrite events_len. Qed.
Lemma n_nonevent_len d : n_nonevent d = Z.of_nat (length (nonevents d)). Proof. now rewrite nonevents_len. Qed.
Lemma inj_pos z : 0 < z -> (0 < inject_Z z)%Q. Proof. intros. unfold Qlt, inject_Z; cbn; lia. Qed.
Lemma inj_le a b : a <= b -> (inject_Z a <= inject_Z b)%Q. Proof. intros. unfold Qle, inject_Z; cbn; lia. Qed.
Lemma len_pos_Z {A} (l : list A) : l <> [] -> 0 < Z.of_nat (length l). Proof. destruct l; [congruence|cbn; lia]. Qed.

(** The Gini index of any scores is (concordant - discordant pairs) / (events * nonevents). *)
Theorem C44_gini_counts_pairs d : events d <> [] -> nonevents d <> [] ->
  (gini d == inject_Z (concordant d - discordant d) / inject_Z (Z.of_nat (length (events d)) * Z.of_nat (length (nonevents d))))%Q.
Proof.
  intros He Hn. pose proof (len_pos_Z _ He) as Pe. pose proof (len_pos_Z _ Hn) as Pn.
  unfold gini. rewrite trap_pairs. pose proof (pairs_total d) as T. rewrite <- n_event_len, <- n_nonevent_len.
  rewrite <- n_event_len in Pe. rewrite <- n_nonevent_len in Pn.
  assert (P : (0 < inject_Z (n_event d * n_nonevent d))%Q) by (apply inj_pos; nia).
  replace (2 * concordant d + ties d) with (concordant d - discordant d + n_event d * n_nonevent d) by lia.
  rewrite (inject_Z_plus (concordant d - discordant d)). field. lra.
Qed.
Theorem C44_gini_range d : events d <> [] -> nonevents d <> [] -> (-1 <= gini d <= 1)%Q.
Proof.
  intros He Hn. rewrite C44_gini_counts_pairs by assumption.
  pose proof (len_pos_Z _ He) as Pe. pose proof (len_pos_Z _ Hn) as Pn. pose proof (pairs_total d) as T.
  rewrite n_event_len, n_nonevent_len in T.
  set (m := Z.of_nat (length (events d)) * Z.of_nat (length (nonevents d))) in *.
  assert (P : (0 < inject_Z m)%Q) by (apply inj_pos; unfold m; nia).
  assert (0 <= concordant d /\ 0 <= discordant d /\ 0 <= ties d) by (unfold concordant, discordant, ties, pairs; lia).
  split.
  - apply Qle_shift_div_l; [exact P|]. assert (E : (-1 * inject_Z m == inject_Z (- m))%Q) by (rewrite inject_Z_opp; ring). rewrite E. apply inj_le; lia.
  - apply Qle_shift_div_r; [exact P|]. rewrite Qmult_1_l. apply inj_le; lia.
Qed.
Lemma pairs_all p d : (forall e n, In e (events d) -> In n (nonevents d) -> p e n = true) ->
  pairs p d = Z.of_nat (length (events d)) * Z.of_nat (length (nonevents d)).
Proof.
  intros H. unfold pairs. rewrite <- Nat2Z.inj_mul, <- prod_length. f_equal. f_equal.
  assert (K : forall ab, In ab (list_prod (events d) (nonevents d)) -> p (fst ab) (snd ab) = true).
  { intros [e n] Hin. apply in_prod_iff in Hin. apply H; tauto. }
  revert K. generalize (list_prod (events d) (nonevents d)). intros l. induction l as [|a l IH]; intros K; [reflexivity|].
  cbn [filter]. rewrite K by (now left). f_equal. apply IH. intros; apply K; now right.
Qed.
Lemma pairs_none p d : (forall e n, In e (events d) -> In n (nonevents d) -> p e n = false) -> pairs p d = 0.
Proof.
  intros H. unfold pairs. assert (E : filter (fun ab => p (fst ab) (snd ab)) (list_prod (events d) (nonevents d)) = []); [|now rewrite E].
  assert (K : forall ab, In ab (list_prod (events d) (nonevents d)) -> p (fst ab) (snd ab) = false).
  { intros [e n] Hin. apply in_prod_iff in Hin. apply H; tauto. }
  revert K. generalize (list_prod (events d) (nonevents d)). intros l. induction l as [|a l IH]; intros K; [reflexivity|].
  cbn [filter]. rewrite K by (now left). apply IH. intros; apply K; now right.
Qed.
(** 1 when every event scores above every nonevent, -1 in the opposite case, 0 when all scores are equal. *)
Theorem C44_gini_perfect d : events d <> [] -> nonevents d <> [] ->
  (forall e n, In e (events d) -> In n (nonevents d) -> n < e) -> (gini d == 1)%Q.
Proof.
  intros He Hn H. rewrite C44_gini_counts_pairs by assumption.
  pose proof (len_pos_Z _ He) as Pe. pose proof (len_pos_Z _ Hn) as Pn.
  unfold concordant, discordant. rewrite (pairs_all (fun e n => n <? e)), (pairs_none (fun e n => e <? n)).
  - rewrite Z.sub_0_r. field. apply Qnot_eq_sym. apply Qlt_not_eq. apply inj_pos. nia.
  - intros e n A B. specialize (H e n A B). apply Z.ltb_ge. lia.
  - intros e n A B. specialize (H e n A B). apply Z.ltb_lt. lia.
Qed.
Theorem C44_gini_reversed d : events d <> [] -> nonevents d <> [] ->
  (forall e n, In e (events d) -> In n (nonevents d) -> e < n) -> (gini d == -1)%Q.
Proof.
  intros He Hn H. rewrite C44_gini_counts_pairs by assumption.
  pose proof (len_pos_Z _ He) as Pe. pose proof (len_pos_Z _ Hn) as Pn.
  unfold concordant, discordant. rewrite (pairs_none (fun e n => n <? e)), (pairs_all (fun e n => e <? n)).
  - rewrite Z.sub_0_l, inject_Z_opp. field. apply Qnot_eq_sym. apply Qlt_not_eq. apply inj_pos. nia.
  - intros e n A B. specialize (H e n A B). apply Z.ltb_lt. lia.
  - intros e n A B. specialize (H e n A B). apply Z.ltb_ge. lia.
Qed.
Theorem C44_gini_constant_scores d c : events d <> [] -> nonevents d <> [] -> (forall s, In s d -> snd s = c) -> (gini d == 0)%Q.
Proof.
  intros He Hn H. rewrite C44_gini_counts_pairs by assumption.
  assert (Ke : forall e, In e (events d) -> e = c).
  { intros e Hin. unfold events in Hin. apply in_map_iff in Hin. destruct Hin as (s & <- & Hs). apply filter_In in Hs. now apply H. }
  assert (Kn : forall e, In e (nonevents d) -> e = c).
  { intros e Hin. unfold nonevents in Hin. apply in_map_iff in Hin. destruct Hin as (s & <- & Hs). apply filter_In in Hs. now apply H. }
  unfold concordant, discordant. rewrite !pairs_none; [reflexivity| |]; intros e n A B; rewrite (Ke e A), (Kn n B); apply Z.ltb_irrefl.
Qed.
(** Gini does not depend on the scale of the scores: any strictly increasing recoding leaves it unchanged. *)
Theorem C44_gini_rank_based d (f : Z -> Z) : events d <> [] -> nonevents d <> [] -> (forall x y, x < y -> f x < f y) ->
  (gini (map (fun s => (fst s, f (snd s)) : ysample) d) == gini d)%Q.
Proof.
  intros He Hn Hf. set (d' := map (fun s : ysample => (fst s, f (snd s)) : ysample) d). change (gini d' == gini d)%Q.
  assert (Ee : events d' = map f (events d)).
  { unfold d', events. clear. induction d as [|[[] z] d IH]; cbn [map filter fst snd]; [reflexivity|now rewrite IH|exact IH]. }
  assert (En : nonevents d' = map f (nonevents d)).
  { unfold d', nonevents. clear. induction d as [|[[] z] d IH]; cbn [map filter fst snd negb]; [reflexivity|exact IH|now rewrite IH]. }
  assert (He' : events d' <> []) by (rewrite Ee; destruct (events d); cbn; congruence).
  assert (Hn' : nonevents d' <> []) by (rewrite En; destruct (nonevents d); cbn; congruence).
  rewrite (C44_gini_counts_pairs d' He' Hn'), (C44_gini_counts_pairs d He Hn).
  rewrite Ee, En, !map_length.
  assert (Hlt : forall x y, (f x <? f y) = (x <? y)).
  { intros x y. apply eq_true_iff_eq. rewrite !Z.ltb_lt. split; [|apply Hf]. intros K. destruct (Z.lt_trichotomy x y) as [|[->|L]]; [assumption|lia|]. apply Hf in L. lia. }
  assert (P : forall p q : Z -> Z -> bool, (forall x y, p (f x) (f y) = q x y) -> pairs p d' = pairs q d).
  { intros p q Hpq. unfold pairs. rewrite Ee, En. rewrite (pairs_sum p), (pairs_sum q), map_map. apply zsum_ext.
    intros n _. f_equal. clear -Hpq. induction (events d) as [|e l IH]; [reflexivity|]. cbn [map filter]. rewrite Hpq. destruct (q e n); cbn [length]; congruence. }
  unfold concordant, discordant. rewrite (P _ (fun e n => n <? e)), (P _ (fun e n => e <? n)); [reflexivity| |]; intros; apply Hlt.
Qed.
Print Assumptions C44_gini_counts_pairs.
Print Assumptions C44_gini_range.
Print Assumptions C44_gini_perfect.
Print Assumptions C44_gini_reversed.
Print Assumptions C44_gini_constant_scores.
Print Assumptions C44_gini_rank_based.
Definition ex_scores : list ysample := [(true, 9); (false, 1); (true, 4); (false, 4); (false, 7); (true, 8)].
Example C44_gini_hyps_met : events ex_scores <> [] /\ nonevents ex_scores <> [] /\ (gini ex_scores == 2 # 3)%Q.
Proof. repeat split; vm_compute; congruence. Qed.

(** ** KS *)
(** Whatever order argsort gives to tied scores, ks returns the Kolmogorov-Smirnov statistic MINUS 1 / number of nonevents
    (cum_population starts at 0 instead of 1), at a position where the gap is indeed the largest. *)
Theorem C44_ks_is_off_by_one d yy v pos : sorted_labels d yy -> nonevents d <> [] -> ks yy = Some (v, pos) ->
  is_ks yy (v + 1 / inject_Z (Z.of_nat (length (nonevents d))))%Q /\ (pos < length yy)%nat /\
  (share_among false yy (S pos) - share_among true yy (S pos) == v + 1 / inject_Z (Z.of_nat (length (nonevents d))))%Q.
Proof.
  intros (d' & Hp & Hs & ->) Hn Hk.
  assert (E : Z.of_nat (length (nonevents d)) = count_label false (map fst d')).
  { unfold nonevents. rewrite map_length. rewrite (Permutation_length (l' := filter (fun s => negb (fst s)) d')).
    - unfold count_label. f_equal. clear. induction d' as [|[[] z] d' IH]; cbn [filter map fst negb Bool.eqb length]; congruence.
    - clear -Hp. induction Hp; cbn [filter]; try (destruct (negb (fst x))); try (destruct (negb (fst y))); eauto using perm_skip, perm_swap, perm_trans. }
  rewrite E. apply ks_is_ks; [|exact Hk]. rewrite <- E. now apply len_pos_Z.
Qed.
(** So the property "KS is 1 for perfect separation" is false: with every event above every nonevent the result is
    1 - 1 / number of nonevents. *)
Theorem C44_ks_perfect_separation_refuted d yy v pos : sorted_labels d yy -> events d <> [] -> nonevents d <> [] ->
  (forall e n, In e (events d) -> In n (nonevents d) -> n < e) -> ks yy = Some (v, pos) ->
  (v == 1 - 1 / inject_Z (Z.of_nat (length (nonevents d))) /\ v < 1)%Q.
Proof.
  intros Hs He Hn Hsep Hk. destruct (C44_ks_is_off_by_one d yy v pos Hs Hn Hk) as [K _].
  assert (P : (0 < 1 / inject_Z (Z.of_nat (length (nonevents d))))%Q).
  { apply Qlt_shift_div_l; [apply inj_pos; now apply len_pos_Z|]. rewrite Qmult_0_l. reflexivity. }
  assert (is_ks yy 1%Q).
  { destruct Hs as (d' & Hp & Hs & ->).
    assert (Ve : forall e, In e (events d') <-> In e (events d)).
    { intros e. unfold events. rewrite !in_map_iff. split; intros (s & <- & Hin); exists s; (split; [reflexivity|]);
        apply filter_In in Hin; apply filter_In; (split; [|tauto]); [eapply Permutation_in; [symmetry; exact Hp|tauto]|eapply Permutation_in; [exact Hp|tauto]]. }
    assert (Vn : forall e, In e (nonevents d') <-> In e (nonevents d)).
    { intros e. unfold nonevents. rewrite !in_map_iff. split; intros (s & <- & Hin); exists s; (split; [reflexivity|]);
        apply filter_In in Hin; apply filter_In; (split; [|tauto]); [eapply Permutation_in; [symmetry; exact Hp|tauto]|eapply Permutation_in; [exact Hp|tauto]]. }
    destruct (separated_labels d' Hs) as (a & b & E).
    { intros e n A B. apply Hsep; [now apply Ve|now apply Vn]. }
    rewrite E. apply perfect_is_ks.
    - destruct a; [exfalso|lia]. destruct (nonevents d) as [|n l] eqn:En; [congruence|].
      assert (I : In n (nonevents d')) by (apply Vn; now left). unfold nonevents in I. apply in_map_iff in I. destruct I as (s & _ & I).
      apply filter_In in I. destruct I as [I J]. apply (in_map fst) in I. rewrite E in I. cbn [repeat app] in I. apply repeat_spec in I. rewrite I in J. discriminate.
    - destruct b; [exfalso|lia]. destruct (events d) as [|n l] eqn:En; [congruence|].
      assert (I : In n (events d')) by (apply Ve; now left). unfold events in I. apply in_map_iff in I. destruct I as (s & _ & I).
      apply filter_In in I. destruct I as [I J]. apply (in_map fst) in I. rewrite E in I. cbn [repeat] in I. rewrite app_nil_r in I. apply repeat_spec in I. rewrite I in J. discriminate. }
  pose proof (is_ks_unique _ _ _ K H). lra.
Qed.
(** The result is never above 1 - 1/nonevents, and never below -1 / nonevents (the KS statistic itself lies in [0, 1]). *)
Theorem C44_ks_range d yy v pos : sorted_labels d yy -> events d <> [] -> nonevents d <> [] -> ks yy = Some (v, pos) ->
  (- (1 / inject_Z (Z.of_nat (length (nonevents d)))) <= v <= 1 - 1 / inject_Z (Z.of_nat (length (nonevents d))))%Q.
Proof.
  intros Hs He Hn Hk. destruct (C44_ks_is_off_by_one d yy v pos Hs Hn Hk) as [[(k & Hr & E) M] _].
  assert (C : 0 < count_label false yy /\ 0 < count_label true yy).
  { destruct Hs as (d' & Hp & _ & ->).
    assert (L : forall c, (exists s, In s d /\ fst s = c) -> 0 < count_label c (map fst d')).
    { intros c (s & I & F). unfold count_label. apply len_pos_Z. intros Z0.
      assert (J : In c (filter (Bool.eqb c) (map fst d'))).
      { apply filter_In. split; [|now destruct c]. rewrite <- F. apply in_map. eapply Permutation_in; eauto. }
      rewrite Z0 in J. destruct J. }
    split; apply L.
    - unfold nonevents in Hn. destruct (filter (fun s => negb (fst s)) d) as [|s r] eqn:Ef; [now destruct Hn|].
      assert (I : In s (filter (fun s => negb (fst s)) d)) by (rewrite Ef; now left). apply filter_In in I. exists s. split; [tauto|]. destruct (fst s); [easy|reflexivity].
    - unfold events in He. destruct (filter (fun s => fst s) d) as [|s r] eqn:Ef; [now destruct He|].
      assert (I : In s (filter (fun s => fst s) d)) by (rewrite Ef; now left). apply filter_In in I. exists s. tauto. }
  destruct C as [C0 C1]. pose proof (share_range false yy k C0). pose proof (share_range true yy k C1).
  assert (Full : forall b, 0 < count_label b yy -> (share_among b yy (length yy) == 1)%Q).
  { intros b Hb. unfold share_among. rewrite firstn_all. field. apply Qnot_eq_sym, Qlt_not_eq, inj_pos, Hb. }
  assert (Hl : (1 <= length yy)%nat) by lia. specialize (M (length yy) ltac:(lia)). rewrite !Full in M by assumption. lra.
Qed.
Print Assumptions C44_ks_is_off_by_one.
Print Assumptions C44_ks_perfect_separation_refuted.
Print Assumptions C44_ks_range.
Definition ex_sep : list ysample := [(true, 9); (false, 1); (true, 8); (false, 4); (false, 1)].
Example C44_ks_hyps_met : sorted_labels ex_sep [false; false; false; true; true] /\ events ex_sep <> [] /\ nonevents ex_sep <> [] /\
  (forall e n, In e (events ex_sep) -> In n (nonevents ex_sep) -> n < e) /\
  exists v, ks [false; false; false; true; true] = Some (v, 2%nat) /\ (v == 2 # 3)%Q.
Proof.
  repeat split; try (vm_compute; congruence).
  - exists [(false, 1); (false, 1); (false, 4); (true, 8); (true, 9)]. split; [|split; [|reflexivity]].
    + apply Permutation_sym. apply Permutation_trans with ((true,9) :: [(false,1); (false,1); (false,4); (true,8)]).
      * apply Permutation_sym. apply (Permutation_cons_append [(false,1); (false,1); (false,4); (true,8)]).
      * apply perm_skip. apply perm_skip.
        apply Permutation_trans with [(false,4);(false,1);(true,8)]; [apply perm_swap|].
        apply Permutation_trans with [(false,4);(true,8);(false,1)]; [apply perm_skip, perm_swap|]. apply perm_swap.
    + repeat (constructor; [|repeat (constructor; [cbn; lia|]); constructor]). constructor.
  - intros e n He Hn. vm_compute in He, Hn. intuition subst; lia.
  - eexists. split; vm_compute; reflexivity.
Qed.

(** ** Confusion matrix metrics *)
(** events whose prediction is b, among the events *)
Definition predicted (a b : bool) (d : list ypair) : Z := Z.of_nat (length (filter (fun p => Bool.eqb (fst p) a && Bool.eqb (snd p) b) d)).
Definition actual (a : bool) (d : list ypair) : Z := Z.of_nat (length (filter (fun p => Bool.eqb (fst p) a) d)).
Lemma predicted_sum a d : predicted a false d + predicted a true d = actual a d.
Proof.
  unfold predicted, actual. induction d as [|[x y] d IH]; [reflexivity|]. cbn [filter fst snd].
  destruct (Bool.eqb x a), y; cbn [Bool.eqb andb length]; lia.
Qed.
(** tpr is the share of the events predicted as events, tnr the share of nonevents predicted as nonevents, fnr and fpr the
    remaining shares; all lie in [0, 1] and add up to 1. *)
Theorem C44_confusion_metrics d m : imbalanced_metrics d = Some m -> 0 < actual true d -> 0 < actual false d ->
  (tpr m == inject_Z (predicted true true d) / inject_Z (actual true d))%Q /\
  (fnr m == inject_Z (predicted true false d) / inject_Z (actual true d))%Q /\
  (tnr m == inject_Z (predicted false false d) / inject_Z (actual false d))%Q /\
  (fpr m == inject_Z (predicted false true d) / inject_Z (actual false d))%Q /\
  (tpr m + fnr m == 1)%Q /\ (fpr m + tnr m == 1)%Q /\
  (0 <= tpr m <= 1)%Q /\ (0 <= tnr m <= 1)%Q /\ (0 <= balanced_accuracy m <= 1)%Q.
Proof.
  intros H Pe Pn. unfold imbalanced_metrics, confusion in H. destruct (_ && _)%bool; [|discriminate]. injection H as <-. cbn [tpr tnr fpr fnr balanced_accuracy].
  unfold cell. rewrite !nb_map_len. fold (predicted true true d) (predicted true false d) (predicted false true d) (predicted false false d).
  pose proof (predicted_sum true d) as S1. pose proof (predicted_sum false d) as S2.
  replace (predicted true true d + predicted true false d) with (actual true d) by lia.
  replace (predicted false true d + predicted false false d) with (actual false d) by lia.
  assert (0 <= predicted true true d /\ 0 <= predicted true false d /\ 0 <= predicted false true d /\ 0 <= predicted false false d)
    by (unfold predicted; lia).
  pose proof (inj_pos _ Pe) as Qe. pose proof (inj_pos _ Pn) as Qn.
  assert (F1 : (inject_Z (predicted true false d) == inject_Z (actual true d) - inject_Z (predicted true true d))%Q)
    by (rewrite <- S1, inject_Z_plus; ring).
  assert (F2 : (inject_Z (predicted false true d) == inject_Z (actual false d) - inject_Z (predicted false false d))%Q)
    by (rewrite <- S2, inject_Z_plus; ring).
  assert (R1 : (0 <= inject_Z (predicted true true d) / inject_Z (actual true d) <= 1)%Q).
  { split; [apply Qle_shift_div_l; [exact Qe|]; rewrite Qmult_0_l; change 0%Q with (inject_Z 0)|apply Qle_shift_div_r; [exact Qe|]; rewrite Qmult_1_l]; apply inj_le; lia. }
  assert (R2 : (0 <= inject_Z (predicted false false d) / inject_Z (actual false d) <= 1)%Q).
  { split; [apply Qle_shift_div_l; [exact Qn|]; rewrite Qmult_0_l; change 0%Q with (inject_Z 0)|apply Qle_shift_div_r; [exact Qn|]; rewrite Qmult_1_l]; apply inj_le; lia. }
  repeat match goal with |- _ /\ _ => split end; try reflexivity; try lra.
  - rewrite F1. field. lra.
  - rewrite F2. field. lra.
Qed.
(** If a single label occurs in the predictions and in the truth, the unpacking of the 1x1 confusion matrix fails. *)
Theorem C44_single_label_fails_refuted d b : (forall p, In p d -> p = (b, b)) -> imbalanced_metrics d = None.
Proof.
  intros H. unfold imbalanced_metrics, confusion.
  assert (E : forall x, In x (map fst d ++ map snd d) -> x = b).
  { intros x Hx. apply in_app_or in Hx. destruct Hx as [Hx|Hx]; apply in_map_iff in Hx; destruct Hx as (p & <- & Hp); now rewrite (H p Hp). }
  revert E. generalize (map fst d ++ map snd d). intros l E.
  assert (K : (existsb (fun b => b) l && existsb negb l)%bool = false); [|now rewrite K].
  apply Bool.not_true_iff_false. intros K. apply andb_true_iff in K. destruct K as [K1 K2].
  apply existsb_exists in K1. apply existsb_exists in K2. destruct K1 as (x & Ix & Tx), K2 as (y & Iy & Ty).
  rewrite (E x Ix) in Tx. rewrite (E y Iy), Tx in Ty. discriminate.
Qed.
Print Assumptions C44_confusion_metrics.
Print Assumptions C44_single_label_fails_refuted.
Example C44_confusion_hyps_met : exists m, imbalanced_metrics [(true, true); (true, false); (false, false); (true, true); (false, true)] = Some m /\
  (tpr m == 2 # 3)%Q /\ (tnr m == 1 # 2)%Q /\ (fpr m == 1 # 2)%Q.
Proof. eexists. split; [reflexivity|]. vm_compute. auto. Qed.

(** ** Regression metrics *)
Open Scope Q_scope.
Theorem C44_mpe_below_mape d : Qabs (mpe d) <= mape d.
Proof. unfold mpe, mape. pose proof (qmean_abs (map rel_err d)) as H. rewrite map_map in H. exact H. Qed.
Theorem C44_mape_zero_iff_exact d : d <> [] -> (forall s, In s d -> ~ fst s == 0) ->
  0 <= mape d /\ (mape d == 0 <-> forall s, In s d -> fst s == snd s).
Proof.
  intros Hd H0. assert (Hm : map (fun s => Qabs (rel_err s)) d <> []) by (destruct d; [congruence|cbn; congruence]).
  assert (Hn : forall x, In x (map (fun s => Qabs (rel_err s)) d) -> 0 <= x).
  { intros x Hx. apply in_map_iff in Hx. destruct Hx as (s & <- & _). apply Qabs_nonneg. }
  split.
  - unfold mape, qmean. pose proof (len_pos _ Hm) as P. apply Qle_shift_div_l; [exact P|]. rewrite Qmult_0_l.
    clear P Hm. revert Hn. generalize (map (fun s => Qabs (rel_err s)) d). intros l. induction l as [|a l IH]; intros Hn; cbn [qsum]; [lra|].
    specialize (IH ltac:(intros; apply Hn; now right)). specialize (Hn a (or_introl eq_refl)). lra.
  - unfold mape. rewrite (qmean_zero _ Hm Hn). split.
    + intros K s Hs. specialize (K (Qabs (rel_err s)) (in_map (fun s => Qabs (rel_err s)) d s Hs)).
      assert (E : rel_err s == 0) by (revert K; apply (Qabs_case (rel_err s)); intros; lra).
      unfold rel_err in E. specialize (H0 s Hs).
      assert (F : fst s - snd s == (fst s - snd s) / fst s * fst s) by (field; exact H0). rewrite E in F. lra.
    + intros K x Hx. apply in_map_iff in Hx. destruct Hx as (s & <- & Hs). unfold rel_err.
      assert (E : (fst s - snd s) / fst s == 0) by (rewrite (K s Hs); field; specialize (H0 s Hs); rewrite (K s Hs) in H0; exact H0).
      rewrite E. reflexivity.
Qed.
Theorem C44_smape_range d : d <> [] -> (forall s, In s d -> ~ (fst s == 0 /\ snd s == 0)) ->
  0 <= smape d <= 1 /\ 0 <= smdape d <= 1.
Proof.
  intros Hd H0. assert (Hm : map sym_err d <> []) by (destruct d; [congruence|cbn; congruence]).
  assert (Hr : forall x, In x (map sym_err d) -> 0 <= x <= 1).
  { intros x Hx. apply in_map_iff in Hx. destruct Hx as (s & <- & Hs). apply sym_err_range, abs_sum_pos, H0, Hs. }
  split; [apply qmean_bounds|apply qmedian_bounds]; assumption.
Qed.
(** swapping truth and prediction leaves the symmetric errors unchanged *)
Theorem C44_smape_symmetric d : smape (map (fun s => (snd s, fst s)) d) == smape d.
Proof.
  unfold smape, qmean. rewrite !map_length, map_map.
  assert (E : qsum (map (fun s : rsample => sym_err (snd s, fst s)) d) == qsum (map sym_err d)); [|now rewrite E].
  induction d as [|s d IH]; cbn [map qsum]; [reflexivity|]. rewrite IH.
  assert (F : sym_err (snd s, fst s) == sym_err s); [|now rewrite F]. unfold sym_err. cbn [fst snd].
  assert (A : Qabs (snd s - fst s) == Qabs (fst s - snd s)) by (rewrite <- Qabs_opp; apply Qabs_wd; ring).
  rewrite A. unfold Qdiv. now rewrite (Qplus_comm (Qabs (snd s))).
Qed.
Print Assumptions C44_mpe_below_mape.
Print Assumptions C44_mape_zero_iff_exact.
Print Assumptions C44_smape_range.
Print Assumptions C44_smape_symmetric.
Example C44_regression_hyps_met : let d := [(2, 1); (-4, 4); (5, 5)] in
  (forall s, In s d -> ~ fst s == 0) /\ mape d == 5 # 6 /\ mpe d == 5 # 6 /\ smape d == 4 # 9 /\ smdape d == 1 # 3.
Proof. cbv zeta. split; [|vm_compute; auto]. intros s Hs. cbn in Hs. intuition subst; cbn [fst] in *; lra. Qed.
