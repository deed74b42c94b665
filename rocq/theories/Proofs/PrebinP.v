(** C72: tree splits, minimum sizes, rounding. *)
From Coq Require Import List ZArith Bool Lia Sorted.
From Verif Require Import Model.Arr Model.Core Model.Cat Model.Cont Model.Multi Model.Prebin Spec.CoreSpec Spec.PrebinSpec Spec.ContSpec Spec.MultiSpec
  Proofs.CoreP Proofs.CoreFinal Proofs.ContP Proofs.ContFinal Proofs.MultiP.
Import ListNotations.
Open Scope Z_scope.

(** ** rounding *)
Lemma round_rounds U v : 0 < U -> rounds_to U v (round_to U v).
Proof.
  intros HU. unfold rounds_to, round_to. pose proof (Z.div_mod v U ltac:(lia)) as E. pose proof (Z.mod_pos_bound v U HU) as B.
  set (q := v / U) in *. set (r := v mod U) in *. clearbody q r. subst v.
  destruct (2 * r <? U) eqn:E1; [apply Z.ltb_lt in E1|apply Z.ltb_ge in E1; destruct (U <? 2 * r) eqn:E2; [apply Z.ltb_lt in E2|apply Z.ltb_ge in E2; destruct (Z.even q) eqn:E3]].
  - split; [exists q; reflexivity|]. replace (q * U - (U * q + r)) with (- r) by ring. rewrite Z.abs_opp, Z.abs_eq by lia. split; [lia|intros Q; lia].
  - split; [exists (q + 1); reflexivity|]. replace ((q + 1) * U - (U * q + r)) with (U - r) by ring. rewrite Z.abs_eq by lia. split; [lia|intros Q; lia].
  - split; [exists q; reflexivity|]. replace (q * U - (U * q + r)) with (- r) by ring. rewrite Z.abs_opp, Z.abs_eq by lia. split; [lia|intros _].
    rewrite Z.div_mul by lia. now apply Z.even_spec.
  - split; [exists (q + 1); reflexivity|]. replace ((q + 1) * U - (U * q + r)) with (U - r) by ring. rewrite Z.abs_eq by lia. split; [lia|intros _].
    rewrite Z.div_mul by lia. apply Z.even_spec. rewrite Z.even_add, E3. reflexivity.
Qed.
Lemma rounds_unique U t s s' : 0 < U -> rounds_to U t s -> rounds_to U t s' -> s = s'.
Proof.
  intros HU ([a ->] & A2 & A3) ([b ->] & B2 & B3). rewrite Z.div_mul in A3, B3 by lia.
  assert (D : Z.abs (a - b) <= 1) by nia. assert (C : a = b \/ a = b + 1 \/ b = a + 1) by lia.
  destruct C as [->|[->| ->]]; [reflexivity| |]; exfalso.
  - assert (2 * Z.abs ((b + 1) * U - t) = U) as H1 by nia. assert (2 * Z.abs (b * U - t) = U) as H2 by nia.
    destruct (A3 H1) as [x Hx], (B3 H2) as [y Hy]. lia.
  - assert (2 * Z.abs ((a + 1) * U - t) = U) as H1 by nia. assert (2 * Z.abs (a * U - t) = U) as H2 by nia.
    destruct (A3 H2) as [x Hx], (B3 H1) as [y Hy]. lia.
Qed.
Lemma round_mono U a b : 0 < U -> a <= b -> round_to U a <= round_to U b.
Proof.
  intros HU H. destruct (Z.eq_dec a b) as [->|N]; [lia|]. pose proof (round_rounds U a HU) as ([p P] & P1 & P2). pose proof (round_rounds U b HU) as ([q Q] & Q1 & Q2).
  rewrite P in *. rewrite Q in *. assert (p <= q) by nia. nia.
Qed.
Lemma rounded_nondecr U l : 0 < U -> nondecreasing l -> nondecreasing (map (round_to U) l).
Proof.
  intros HU. induction 1 as [|s r Hr IH Hf]; cbn [map]; constructor; [assumption|]. rewrite Forall_forall in *. intros y Hy. apply in_map_iff in Hy.
  destruct Hy as (z & <- & Hz). apply round_mono; auto.
Qed.
Lemma rounded_subseq U l s : 0 < U -> subseq s (map (round_to U) l) -> rounded_from U l s.
Proof.
  intros HU Hs v Hv. apply (subseq_In _ _ _ Hs) in Hv. apply in_map_iff in Hv. destruct Hv as (t & <- & Ht). exists t. split; [exact Ht|now apply round_rounds].
Qed.

(** ** a coarser list of splits *)
Lemma coarser a b : subseq a b -> forall i, (i <= length a)%nat -> exists j, (j <= length b)%nat /\ forall x, digitize b x = j -> digitize a x = i.
Proof.
  induction 1 as [l|s a b H IH|s a b H IH]; intros i Hi; cbn [length] in *.
  - exists 0%nat. split; [lia|]. intros x _. cbn [digitize]. lia.
  - destruct i as [|i]; cbn [digitize].
    + exists 0%nat. split; [lia|]. intros x. destruct (s <=? x); [discriminate|reflexivity].
    + destruct (IH i ltac:(lia)) as (j & Hj & E). exists (S j). split; [lia|]. intros x. destruct (s <=? x); [|discriminate]. intros Q. injection Q as Q. f_equal. now apply E.
  - destruct (IH i Hi) as (j & Hj & E). exists (S j). split; [lia|]. cbn [digitize]. intros x. destruct (s <=? x); [|discriminate]. intros Q. injection Q as Q. now apply E.
Qed.
Lemma filter_le {A} (p q : A -> bool) l : (forall x, In x l -> p x = true -> q x = true) -> (length (filter p l) <= length (filter q l))%nat.
Proof.
  induction l as [|a l IH]; intros H; cbn; [lia|]. specialize (IH (fun x Hx => H x (or_intror Hx))). specialize (H a (or_introl eq_refl)).
  destruct (p a) eqn:Ep, (q a) eqn:Eq; cbn [length]; try lia; discriminate (H eq_refl).
Qed.
Definition dcount (splits values : list Z) (i : nat) : nat := length (filter (fun x => Nat.eqb (digitize splits x) i) values).
Lemma coarser_count a b m values : subseq a b -> (forall j, (j <= length b)%nat -> (m <= dcount b values j)%nat) -> forall i, (i <= length a)%nat -> (m <= dcount a values i)%nat.
Proof.
  intros H Hb i Hi. destruct (coarser a b H i Hi) as (j & Hj & E). eapply Nat.le_trans; [apply (Hb j Hj)|]. unfold dcount. apply filter_le. intros x _ Q.
  apply Nat.eqb_eq in Q. apply Nat.eqb_eq. auto.
Qed.
Lemma count_hold m splits values : nondecreasing splits -> (forall i, (i <= length splits)%nat -> (m <= dcount splits values i)%nat) -> bins_hold m splits values.
Proof.
  intros N H k p Hk Hp. eapply Nat.le_trans; [apply (H k Hk)|]. unfold dcount. apply filter_le. intros x _ Q. apply Nat.eqb_eq in Q. apply Hp. rewrite <- Q. now apply digitize_in_bin.
Qed.
Lemma nonempty_incr splits : nondecreasing splits -> (forall i, (i <= length splits)%nat -> exists x, digitize splits x = i) -> increasing splits.
Proof.
  induction 1 as [|s r Hr IH Hf]; intros H; constructor.
  - apply IH. intros i Hi. destruct (H (S i) ltac:(cbn; lia)) as (x & E). cbn in E. destruct (s <=? x); [|discriminate]. injection E as E. eauto.
  - rewrite Forall_forall in *. destruct r as [|t r]; [intros ? []|]. destruct (H 1%nat ltac:(cbn; lia)) as (x & E). cbn in E.
    destruct (Z.leb_spec s x) as [L|L]; [|discriminate]. destruct (Z.leb_spec t x) as [L2|L2]; [discriminate|].
    intros y [<-|Hy]; [lia|]. inversion Hr as [|? ? H1 H2]; subst. rewrite Forall_forall in H2. specialize (H2 y Hy). lia.
Qed.

(** ** trees *)
Fixpoint inorder (t : tree) : list Z := match t with Leaf => [] | Node s l r => inorder l ++ s :: inorder r end.
Lemma inorder_In t s : In s (inorder t) <-> inner t s.
Proof. induction t as [|p l IHl r IHr]; cbn; [tauto|]. rewrite in_app_iff. cbn. rewrite IHl, IHr. intuition. Qed.
Lemma inorder_len t : leaves t = S (length (inorder t)).
Proof. induction t as [|p l IHl r IHr]; cbn; [reflexivity|]. rewrite app_length. cbn. lia. Qed.
Lemma array_In u t s : In s (threshold_array u t) <-> inner t s \/ s = -2 * u.
Proof.
  induction t as [|p l IHl r IHr]; cbn [threshold_array inner In]; [intuition|]. rewrite in_app_iff, IHl, IHr. intuition.
Qed.
Lemma filter_incr p l : increasing l -> increasing (filter p l).
Proof.
  induction 1 as [|s r Hr IH Hf]; cbn; [constructor|]. destruct (p s); [|exact IH]. constructor; [exact IH|]. rewrite Forall_forall in *. intros y Hy. apply filter_In in Hy. now apply Hf.
Qed.
Lemma tree_splits_In u t s : In s (tree_splits u t) <-> inner t s /\ s <> -2 * u.
Proof.
  unfold tree_splits. rewrite filter_In, np_unique_In, array_In, negb_true_iff, Z.eqb_neq. intuition.
Qed.
Lemma tree_splits_incr u t : increasing (tree_splits u t).
Proof. apply filter_incr, np_unique_sorted. Qed.
Lemma tree_splits_len u t : (S (length (tree_splits u t)) <= leaves t)%nat.
Proof.
  rewrite inorder_len. apply le_n_S. apply NoDup_incl_length; [apply increasing_NoDup, tree_splits_incr|]. intros s Hs. apply tree_splits_In in Hs. now apply inorder_In.
Qed.
Lemma grown_between m t : (1 <= m)%nat -> forall xs s, grown m t xs -> inner t s -> (exists x, In x xs /\ x <= s) /\ (exists x, In x xs /\ s < x).
Proof.
  intros Hm. assert (NE : forall t xs, grown m t xs -> exists x, In x xs).
  { induction t0 as [|p l IHl r IHr]; intros xs G; cbn in G.
    - destruct xs as [|x xs]; [cbn in G; lia|]. exists x. now left.
    - destruct G as [G _]. destruct (IHl _ G) as (x & Hx). apply filter_In in Hx. exists x. tauto. }
  induction t as [|p l IHl r IHr]; intros xs s G H; cbn in G, H; [destruct H|]. destruct G as [G1 G2]. destruct H as [->|[H|H]].
  - destruct (NE _ _ G1) as (x & Hx). apply filter_In in Hx. destruct (NE _ _ G2) as (z & Hz). apply filter_In in Hz.
    split; [exists x|exists z]; (split; [tauto|]); [apply Z.leb_le; tauto|apply Z.ltb_lt; tauto].
  - destruct (IHl _ _ G1 H) as ((x & X1 & X2) & (z & Z1 & Z2)). apply filter_In in X1, Z1. split; [exists x|exists z]; tauto.
  - destruct (IHr _ _ G2 H) as ((x & X1 & X2) & (z & Z1 & Z2)). apply filter_In in X1, Z1. split; [exists x|exists z]; tauto.
Qed.
Lemma app_incr a s b : increasing a -> increasing b -> (forall x, In x a -> x < s) -> (forall x, In x b -> s < x) -> increasing (a ++ s :: b).
Proof.
  intros Ha Hb H1 H2. induction Ha as [|x a Ha IH Hf]; cbn.
  - constructor; [exact Hb|]. now apply Forall_forall.
  - constructor; [apply IH; intros y Hy; apply H1; now right|]. rewrite Forall_forall in *. intros y Hy. apply in_app_iff in Hy. destruct Hy as [Hy|[<-|Hy]]; [now apply Hf|apply H1; now left|].
    specialize (H1 x (or_introl eq_refl)). specialize (H2 y Hy). lia.
Qed.
Lemma grown_incr m t : (1 <= m)%nat -> forall xs, grown m t xs -> increasing (inorder t).
Proof.
  intros Hm. induction t as [|p l IHl r IHr]; intros xs G; cbn; [constructor|]. pose proof G as [G1 G2]. apply app_incr; eauto.
  - intros x Hx. apply inorder_In in Hx. destruct (grown_between m l Hm _ x G1 Hx) as (_ & (z & Z1 & Z2)). apply filter_In in Z1. destruct Z1 as [_ Z1]. apply Z.leb_le in Z1. lia.
  - intros x Hx. apply inorder_In in Hx. destruct (grown_between m r Hm _ x G2 Hx) as ((z & Z1 & Z2) & _). apply filter_In in Z1. destruct Z1 as [_ Z1]. apply Z.ltb_lt in Z1. lia.
Qed.
Lemma digitize_left a s b x : x < s -> digitize (a ++ s :: b) x = digitize a x.
Proof.
  intros H. induction a as [|y a IH]; cbn; [|destruct (y <=? x); [now rewrite IH|reflexivity]]. destruct (Z.leb_spec s x); [lia|reflexivity].
Qed.
Lemma digitize_right a s b x : (forall y, In y a -> y <= x) -> s <= x -> digitize (a ++ s :: b) x = (S (length a) + digitize b x)%nat.
Proof.
  intros Ha H. induction a as [|y a IH]; cbn.
  - destruct (Z.leb_spec s x); [reflexivity|lia].
  - destruct (Z.leb_spec y x) as [L|L]; [|specialize (Ha y (or_introl eq_refl)); lia]. rewrite IH; [reflexivity|]. intros z Hz. apply Ha. now right.
Qed.
Lemma filter_filter {A} (p q : A -> bool) l : filter p (filter q l) = filter (fun x => q x && p x) l.
Proof. induction l as [|a l IH]; cbn; [reflexivity|]. destruct (q a); cbn; [destruct (p a); now rewrite IH|exact IH]. Qed.
Lemma grown_counts m t : (1 <= m)%nat -> forall xs, grown m t xs -> (forall s, inner t s -> ~ In s xs) ->
  forall i, (i <= length (inorder t))%nat -> (m <= dcount (inorder t) xs i)%nat.
Proof.
  intros Hm. induction t as [|p l IHl r IHr]; intros xs G NT i Hi; cbn [inorder length] in *.
  - cbn in G. unfold dcount. assert (i = 0)%nat as -> by lia. cbn. assert (E : filter (fun _ : Z => true) xs = xs) by (clear; induction xs; cbn; congruence). now rewrite E.
  - pose proof G as [G1 G2]. rewrite app_length in Hi. cbn in Hi.
    assert (BL : forall s, inner l s -> s < p).
    { intros x Hx. destruct (grown_between m l Hm _ x G1 Hx) as (_ & (z & Z1 & Z2)). apply filter_In in Z1. destruct Z1 as [_ Z1]. apply Z.leb_le in Z1. lia. }
    destruct (le_lt_dec i (length (inorder l))) as [Q|Q].
    + eapply Nat.le_trans; [apply (IHl _ G1)|]; [|exact Q|].
      * intros s Hs Hx. apply filter_In in Hx. apply (NT s); [cbn; auto|tauto].
      * unfold dcount. rewrite filter_filter. apply filter_le. intros x Hx E. apply andb_true_iff in E. destruct E as [E1 E2]. apply Z.leb_le in E1.
        assert (x <> p) by (intros ->; apply (NT p); [cbn; auto|exact Hx]). now rewrite digitize_left by lia.
    + eapply Nat.le_trans; [apply (IHr _ G2)|]; [|instantiate (1 := (i - S (length (inorder l)))%nat); lia|].
      * intros s Hs Hx. apply filter_In in Hx. apply (NT s); [cbn; auto|tauto].
      * unfold dcount. rewrite filter_filter. apply filter_le. intros x Hx E. apply andb_true_iff in E. destruct E as [E1 E2]. apply Z.ltb_lt in E1. apply Nat.eqb_eq in E2. apply Nat.eqb_eq.
        rewrite digitize_right; [lia| |lia]. intros y Hy. apply inorder_In in Hy. specialize (BL y Hy). lia.
Qed.
Lemma incl_subseq a : forall b, increasing a -> increasing b -> (forall x, In x a -> In x b) -> subseq a b.
Proof.
  intros b. revert a. induction b as [|y b IH]; intros a Ha Hb H.
  - destruct a as [|x a]; [constructor|]. destruct (H x (or_introl eq_refl)).
  - apply incr_inv in Hb. destruct Hb as [Hb Hy]. destruct a as [|x a]; [constructor|]. pose proof Ha as Ha'. apply incr_inv in Ha'. destruct Ha' as [Ha1 Hx].
    destruct (H x (or_introl eq_refl)) as [->|Hi].
    + apply subseq_keep. apply IH; auto. intros z Hz. destruct (H z (or_intror Hz)) as [->|Q]; [specialize (Hx z Hz); lia|exact Q].
    + apply subseq_drop. apply IH; auto. intros z [<-|Hz]; [exact Hi|]. destruct (H z (or_intror Hz)) as [->|Q]; [|exact Q].
      specialize (Hx z Hz). specialize (Hy x Hi). lia.
Qed.
Lemma tree_hold u m t values splits : (1 <= m)%nat -> grown m t values -> (forall s, inner t s -> ~ In s values) -> subseq splits (tree_splits u t) ->
  bins_hold m splits values.
Proof.
  intros Hm G NT Hs. assert (subseq (tree_splits u t) (inorder t)) as Ht.
  { apply incl_subseq; [apply tree_splits_incr|now apply (grown_incr m t Hm values)|]. intros s H. apply tree_splits_In in H. now apply inorder_In. }
  apply count_hold.
  - apply (subseq_nondecr _ _ Hs), incr_nondecr, tree_splits_incr.
  - apply (coarser_count splits (inorder t) m values); [now apply (subseq_trans _ _ _ Hs)|]. now apply grown_counts.
Qed.

(** ** the splits of a fit are some of the splits it was given *)
Lemma optimal_subseq n l sol : subseq (optimal_splits n l sol) l.
Proof. unfold optimal_splits. destruct (n <=? 1)%nat; [apply subseq_refl|apply select_subseq]. Qed.
Lemma fit_subseq wu d solver sp fixed user splits0 xs ys sw f : nondecreasing splits0 ->
  fit_numerical wu d solver sp fixed user splits0 xs ys sw = Some (Ok f) ->
  subseq (f_splits f) splits0 /\ (d = IV \/ d = JS -> increasing (f_splits f)).
Proof.
  intros N H. unfold fit_numerical in H. destruct (C05_refinement wu d (to_csamples (split_masks sp xs ys sw)) fixed user 0%nat false splits0 N) as (r & E & R).
  rewrite E in H. destruct r as [pb|e]; [|discriminate]. injection H as H. unfold finish_fit in H. destruct (bin_info_1 _ _ _ _ _ _); [|discriminate]. destruct (bin_info_1 _ _ _ _ _ _); [|discriminate].
  injection H as <-. cbn [f_splits]. destruct R as (R1 & R2 & _). split; [eapply subseq_trans; [apply optimal_subseq|exact R1]|].
  intros D. destruct (R2 D) as [R3 _]. unfold optimal_splits. destruct (_ <=? 1)%nat; [exact R3|now apply select_incr].
Qed.
Lemma cat_subseq wu u d solver sp cut order prebinning xs ys sw f : (forall data, nondecreasing (prebinning data)) ->
  fit_categorical wu u d solver sp cut order prebinning xs ys sw = Some (Ok f) -> exists data, subseq (Cat.cf_splits f) (prebinning data).
Proof.
  intros N H. unfold fit_categorical in H. destruct (split_categorical cut sp xs ys sw) as [cs|]; [|discriminate].
  set (data := cat_csamples u (order (x_clean (cs_out cs)) (y_clean (cs_out cs))) (cs_out cs)) in *.
  destruct (C05_refinement wu d data None None 0%nat false (prebinning data) (N data)) as (r & E & R). rewrite E in H. destruct r as [pb|e]; [|discriminate].
  injection H as H. unfold finish_fit_cat in H. destruct (bin_info_1 _ _ _ _ _ _); [|discriminate]. destruct (bin_info_1 _ _ _ _ _ _); [|discriminate].
  injection H as <-. cbn. exists data. eapply subseq_trans; [apply optimal_subseq|apply R].
Qed.
Lemma cont_subseq old solver sp fixed user splits0 rs f : fit_cont old solver sp fixed user splits0 rs = Some (Ok f) -> subseq (cf_splits f) splits0.
Proof.
  intros H. unfold fit_cont in H. assert (G : forall e, match user with Some [] => Some (Err OtherError) | _ => e end = Some (Ok f) -> e = Some (Ok f)).
  { intros e Q. destruct user as [[|]|]; (discriminate || exact Q). }
  apply G in H. clear G. destruct (special_rows _ _); [|discriminate]. destruct (refine_c _ fixed user splits0) as [[pb|e]|] eqn:R; try discriminate.
  assert (S : subseq (cp_splits pb) splits0).
  { unfold refine_c in R. destruct splits0 as [|s r]; [injection R as <-; constructor|]. apply compute_prebins_c_refined in R. apply R. }
  assert (T : cf_splits f = optimal_splits (length (cp_stats pb)) (cp_splits pb) (if (length (cp_stats pb) <=? 1)%nat then repeat false (length (cp_splits pb)) else solver (cp_stats pb))).
  { cbv zeta in H. destruct (if (length (cp_stats pb) <=? 1)%nat then _ else _) eqn:Es.
    - destruct (map to_ksample _); [discriminate|]. injection H as <-. reflexivity.
    - destruct (merge_stats _ _ _); [|discriminate]. injection H as <-. reflexivity. }
  rewrite T. eapply subseq_trans; [apply optimal_subseq|exact S].
Qed.
Lemma multi_subseq solver sp fixed user splits0 rs f : fit_multi solver sp fixed user splits0 rs = Some (Ok f) ->
  subseq (mf_splits f) (mp_splits (mf_prebins f)) /\ exists classes data, refined_m classes data splits0 (mf_prebins f) /\ mf_classes f = classes.
Proof.
  intros H. unfold fit_multi in H. cbv zeta in H. destruct (100 <? _)%nat; [discriminate|].
  destruct (compute_prebins_m _ _ _ fixed user 0 splits0) as [[pb|e]|] eqn:R; try discriminate. apply compute_prebins_m_refined in R.
  destruct (special_nonempty sp _); [|discriminate]. destruct (all_some _); [|discriminate]. injection H as <-. cbn. split; [|eauto].
  destruct (mp_splits pb); [constructor|apply select_subseq].
Qed.
