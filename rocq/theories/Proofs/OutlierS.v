From Coq Require Import List ZArith QArith Qabs Qround Lia Lqa Bool Arith Permutation Sorting.
From Verif Require Import Model.Arr Model.Core Model.Mdlp Model.Outlier Spec.CoreSpec Spec.OutlierSpec Proofs.ArrP Proofs.CoreP Proofs.OutlierP Proofs.OutlierQ Proofs.OutlierR.
Import ListNotations.
Open Scope nat_scope.

(** ** the loop over the bins *)
Lemma set_true_length p (m : list bool) : p < length m -> length (firstn p m ++ [true] ++ skipn (S p) m) = length m.
Proof. intros H. rewrite app_length, firstn_length, app_length, skipn_length. cbn [length]. lia. Qed.
Lemma set_true_nth p (m : list bool) i : p < length m -> nth i (firstn p m ++ [true] ++ skipn (S p) m) false = Nat.eqb p i || nth i m false.
Proof.
  intros H. destruct (Nat.lt_trichotomy i p) as [L|[->|G]].
  - rewrite app_nth1 by (rewrite firstn_length; lia). rewrite nth_firstn' by lia. destruct (Nat.eqb_spec p i); [lia|reflexivity].
  - assert (Lf : length (firstn p m) = p) by (rewrite firstn_length; lia). rewrite app_nth2 by lia. rewrite Lf, Nat.sub_diag, Nat.eqb_refl. reflexivity.
  - assert (Lf : length (firstn p m) = p) by (rewrite firstn_length; lia). rewrite app_nth2 by lia. rewrite Lf. destruct (Nat.eqb_spec p i); [lia|].
    destruct (i - p) as [|k] eqn:E; [lia|]. cbn [app nth]. rewrite nth_skipn. replace (k + S p) with i by lia. reflexivity.
Qed.
Lemma write_at_spec : forall ps bs m, (forall p, In p ps -> p < length m) ->
  length (write_at ps bs m) = length m /\
  forall i, nth i (write_at ps bs m) false = existsb (fun pb => Nat.eqb (fst pb) i && snd pb) (combine ps bs) || nth i m false.
Proof.
  induction ps as [|p ps IH]; intros [|b bs] m H; cbn [write_at combine existsb]; try (split; reflexivity).
  assert (Hp : p < length m) by (apply H; now left).
  assert (L : length (if b then firstn p m ++ [true] ++ skipn (S p) m else m) = length m) by (destruct b; [now apply set_true_length|reflexivity]).
  destruct (IH bs (if b then firstn p m ++ [true] ++ skipn (S p) m else m)) as [I1 I2]; [intros q Hq; rewrite L; apply H; now right|].
  split; [now rewrite I1|]. intros i. rewrite I2. cbn [fst snd]. destruct b; [rewrite set_true_nth by exact Hp|]; rewrite ?andb_true_r, ?andb_false_r; cbn [orb]; [|reflexivity].
  destruct (existsb _ _), (Nat.eqb p i); reflexivity.
Qed.
Lemma combine_select {A B} : forall (m : list bool) (a : list A) (b : list B), combine (select m a) (select m b) = select m (combine a b).
Proof.
  induction m as [|x m IH]; intros [|y a] [|z b]; cbn [select combine]; try reflexivity; try (destruct x; reflexivity).
  - destruct x; cbn [combine]; [reflexivity|]. now destruct (select m a).
  - destruct x; cbn [combine]; now rewrite IH.
Qed.
Lemma combine_map_r {A B C} (f : B -> C) : forall (a : list A) b, combine a (map f b) = map (fun p => (fst p, f (snd p))) (combine a b).
Proof. induction a as [|x a IH]; intros [|y b]; cbn; try reflexivity. now rewrite IH. Qed.
Lemma existsb_map' {A B} (g : A -> B) p l : existsb p (map g l) = existsb (fun x => p (g x)) l.
Proof. induction l as [|a r IH]; cbn; [reflexivity|]. now rewrite IH. Qed.

Definition group (idx : list nat) (ys : list Z) (k : nat) : list Z := select (map (fun j => Nat.eqb j k) idx) ys.
Lemma bin_written idx ys (f : Z -> bool) k i : length idx = length ys -> i < length ys ->
  existsb (fun pb => Nat.eqb (fst pb) i && snd pb)
    (combine (select (map (fun j => Nat.eqb j k) idx) (seq 0 (length idx))) (map f (group idx ys k)))
  = Nat.eqb (nth i idx 0) k && f (nth i ys 0%Z).
Proof.
  intros Hl. unfold group. rewrite combine_map_r, combine_select, existsb_map'. cbn [fst snd].
  assert (G : forall idx ys o i, length idx = length ys ->
    existsb (fun x => Nat.eqb (fst x) (o + i) && f (snd x)) (select (map (fun j => Nat.eqb j k) idx) (combine (seq o (length idx)) ys))
    = (i <? length ys) && (Nat.eqb (nth i idx 0) k && f (nth i ys 0%Z))).
  { clear. induction idx as [|j idx IH]; intros [|y ys] o i Hl; try discriminate; [reflexivity|]. injection Hl as Hl.
    cbn [length seq map select combine]. destruct i as [|i].
    - cbn [nth]. rewrite Nat.add_0_r. cbn [Nat.ltb Nat.leb andb].
      assert (Z : existsb (fun x => Nat.eqb (fst x) o && f (snd x)) (select (map (fun j => Nat.eqb j k) idx) (combine (seq (S o) (length idx)) ys)) = false).
      { apply not_true_is_false. intros E. apply existsb_exists in E as ([p z] & Hin & E). apply select_In in Hin. apply in_combine_l in Hin. apply in_seq in Hin.
        apply andb_true_iff in E as [E _]. apply Nat.eqb_eq in E. cbn [fst] in E. lia. }
      destruct (Nat.eqb j k); cbn [existsb andb fst snd]; rewrite ?Z, ?Nat.eqb_refl; cbn [andb]; [apply orb_false_r|reflexivity].
    - assert (E : forall l, existsb (fun x => Nat.eqb (fst x) (o + S i) && f (snd x)) l = existsb (fun x => Nat.eqb (fst x) (S o + i) && f (snd x)) l) by (intros l; now rewrite Nat.add_succ_r).
      cbn [nth]. change (S i <? S (length ys)) with (i <? length ys). rewrite <- (IH ys (S o) i Hl).
      destruct (Nat.eqb j k); cbn [existsb fst snd]; rewrite ?E; [|reflexivity]. destruct (Nat.eqb_spec o (o + S i)); [lia|reflexivity]. }
  intros Hi. specialize (G idx ys 0 i Hl). cbn [Nat.add] in G. rewrite G. destruct (Nat.ltb_spec i (length ys)); [reflexivity|lia].
Qed.

Lemma y_loop_spec d idx ys : length idx = length ys -> forall bins support m, NoDup bins -> length support = length ys ->
  y_loop d idx ys bins support = Ok m ->
  length m = length ys /\
  forall i, i < length ys ->
    (In (nth i idx 0) bins -> exists f, fit1 d (group idx ys (nth i idx 0)) = Ok (map f (group idx ys (nth i idx 0))) /\
        (group idx ys (nth i idx 0) <> [] -> forall y, flag_right d (group idx ys (nth i idx 0)) y (f y)) /\
        nth i m false = f (nth i ys 0%Z) || nth i support false) /\
    (~ In (nth i idx 0) bins -> nth i m false = nth i support false).
Proof.
  intros Hl. induction bins as [|k bins IH]; intros support m Hnd Hs H; cbn [y_loop] in H.
  - injection H as <-. split; [exact Hs|]. intros i _. split; [intros []|reflexivity].
  - fold (group idx ys k) in H. destruct (fit1 d (group idx ys k)) as [out|e] eqn:Ef; [|discriminate]. cbn [rbind] in H.
    destruct (fit1_flags _ _ _ Ef) as (f & -> & Hf).
    destruct (write_at_spec (select (map (fun j => Nat.eqb j k) idx) (seq 0 (length idx))) (map f (group idx ys k)) support) as [W1 W2].
    { intros p Hp. apply select_In in Hp. apply in_seq in Hp. lia. }
    inversion Hnd as [|? ? Hni Hnd']. subst. destruct (IH _ m Hnd' ltac:(rewrite W1; exact Hs) H) as [I1 I2]. split; [exact I1|].
    intros i Hi. destruct (I2 i Hi) as [J1 J2]. specialize (W2 i). rewrite (bin_written idx ys f k i Hl Hi) in W2.
    split.
    + intros [E|Hin].
      * subst k. exists f. split; [exact Ef|]. split; [exact Hf|]. rewrite (J2 Hni). rewrite W2, Nat.eqb_refl. reflexivity.
      * destruct (J1 Hin) as (g & G1 & G2 & G3). exists g. split; [exact G1|]. split; [exact G2|]. rewrite G3. rewrite W2.
        destruct (Nat.eqb_spec (nth i idx 0) k) as [E|E]; [subst k; contradiction|reflexivity].
    + intros Hn. rewrite J2 by (intros G; apply Hn; now right). rewrite W2.
      destruct (Nat.eqb_spec (nth i idx 0) k) as [E|E]; [exfalso; apply Hn; now left|reflexivity].
Qed.

(** ** the split points *)
Open Scope Q_scope.
Lemma unique_spec l : StronglySorted Qle l -> StronglySorted Qlt (unique_sorted l) /\
  (forall x, In x (unique_sorted l) -> In x l) /\ (forall x, In x l -> Exists (fun s => s == x) (unique_sorted l)) /\
  (forall b r, l = b :: r -> exists c r', unique_sorted l = c :: r' /\ c == b).
Proof.
  induction l as [|a r IH]; intros H; [split; [constructor|]; split; [intros x []|]; split; [intros x []|discriminate]|].
  inversion H as [|? ? Hr Hf]. subst. destruct (IH Hr) as (I1 & I2 & I3 & I4). destruct r as [|b r'].
  - cbn [unique_sorted]. split; [repeat constructor|]. split; [tauto|]. split; [intros x [->|[]]; left; reflexivity|]. intros b r E. injection E as -> <-. exists b, []. split; reflexivity.
  - destruct (I4 b r' eq_refl) as (c & t & Ec & Hc). change (unique_sorted (a :: b :: r')) with (if Qeq_bool a b then unique_sorted (b :: r') else a :: unique_sorted (b :: r')). destruct (Qeq_bool a b) eqn:E.
    + apply Qeq_bool_iff in E. split; [exact I1|]. split; [intros x Hx; right; now apply I2|]. split.
      * intros x [->|Hx]; [|now apply I3]. apply Exists_exists. exists c. split; [rewrite Ec; now left|]. now rewrite Hc, E.
      * intros b0 r0 E0. injection E0 as <- <-. exists c, t. split; [exact Ec|]. now rewrite Hc, E.
    + assert (Hlt : a < b). { rewrite Forall_forall in Hf. specialize (Hf b (or_introl eq_refl)). apply Qle_lteq in Hf as [Hf|Hf]; [exact Hf|]. apply Qeq_bool_iff in Hf. congruence. }
      split. { constructor; [exact I1|]. rewrite Ec in I1 |- *. inversion I1 as [|? ? _ Ht]. subst. rewrite Forall_forall in *. intros x [<-|Hx]; [now rewrite Hc|]. eapply Qlt_trans; [|now apply Ht]. now rewrite Hc. }
      split; [intros x [->|Hx]; [now left|right; now apply I2]|]. split; [intros x [->|Hx]; [left; reflexivity|right; now apply I3]|].
      intros b0 r0 E0. injection E0 as <- <-. eexists. eexists. split; reflexivity.
Qed.
Lemma linspace_nth n i : (i <= n)%nat -> nth_error (linspace01 n) i = Some (zq i / zq n).
Proof. intros H. unfold linspace01. rewrite nth_error_map, (nth_error_nth' (seq 0 (S n)) i 0%nat) by (rewrite seq_length; lia). rewrite seq_nth by lia. reflexivity. Qed.
Lemma ratio_bounds i n : (0 < n)%nat -> (i <= n)%nat -> 0 <= zq i / zq n /\ zq i / zq n <= 1.
Proof.
  intros Hn Hi. assert (Hp : 0 < zq n) by (change 0 with (zq 0); apply zq_lt; lia). split.
  - apply Qle_shift_div_l; [exact Hp|]. rewrite Qmult_0_l. apply zq_pos.
  - apply Qle_shift_div_r; [exact Hp|]. rewrite Qmult_1_l. apply zq_le. lia.
Qed.
Lemma ratio_mono i j n : (0 < n)%nat -> (i <= j)%nat -> zq i / zq n <= zq j / zq n.
Proof.
  intros Hn Hi. assert (Hp : 0 < zq n) by (change 0 with (zq 0); apply zq_lt; lia). apply Qle_shift_div_l; [exact Hp|].
  setoid_replace (zq i / zq n * zq n) with (zq i) by (field; lra). now apply zq_le.
Qed.
Lemma sorted_map_seq (g : nat -> Q) : forall k a, (forall i j, (a <= i)%nat -> (i <= j)%nat -> (j < a + k)%nat -> g i <= g j) -> StronglySorted Qle (map g (seq a k)).
Proof.
  induction k as [|k IH]; intros a H; cbn; constructor.
  - apply IH. intros i j H1 H2 H3. apply H; lia.
  - rewrite Forall_forall. intros x Hx. apply in_map_iff in Hx as (j & <- & Hj). apply in_seq in Hj. apply H; lia.
Qed.
Lemma quantile_zero xs x : xs <> [] -> In x xs -> forall q, q == 0 -> quantile xs q <= inject_Z x.
Proof.
  intros Hne Hx q E. destruct (quantile_between xs q Hne ltac:(lra) ltac:(lra)) as [Q1 _].
  apply (Permutation_in _ (Permutation_sym (np_sort_perm xs))) in Hx. apply (In_nth _ _ 0%Z) in Hx as (k & Hk & <-). rewrite np_sort_length in Hk.
  apply Q1; [|exact Hk]. rewrite E, Qmult_0_l. apply zq_pos.
Qed.
Lemma quantile_one xs x : xs <> [] -> In x xs -> forall q, q == 1 -> inject_Z x <= quantile xs q.
Proof.
  intros Hne Hx q E. destruct (quantile_between xs q Hne ltac:(lra) ltac:(lra)) as [_ Q2].
  apply (Permutation_in _ (Permutation_sym (np_sort_perm xs))) in Hx. apply (In_nth _ _ 0%Z) in Hx as (k & Hk & <-). rewrite np_sort_length in Hk.
  apply Q2. rewrite E, Qmult_1_l. apply zq_le in Hk. rewrite zq_S in Hk. lra.
Qed.
Lemma sorted_app_lt (l : list Q) x : StronglySorted Qlt (l ++ [x]) -> StronglySorted Qlt l /\ forall y, In y l -> y < x.
Proof.
  induction l as [|a r IH]; intros H; [split; [constructor|intros y []]|]. cbn in H. inversion H as [|? ? H1 H2]. subst. destruct (IH H1) as [I1 I2].
  rewrite Forall_forall in H2. split.
  - constructor; [exact I1|]. rewrite Forall_forall. intros y Hy. apply H2, in_or_app. now left.
  - intros y [->|Hy]; [apply H2, in_or_app; right; now left|now apply I2].
Qed.
Lemma y_splits_ok n xs : (0 < n)%nat -> xs <> [] -> quantile_splits n xs (y_splits n xs).
Proof.
  intros Hn Hne. assert (Hp : 0 < zq n) by (change 0 with (zq 0); apply zq_lt; lia). unfold y_splits, linspace01. rewrite map_map. set (g := fun i => quantile xs (inject_Z (Z.of_nat i) / inject_Z (Z.of_nat n))).
  assert (Hg : forall i j, (i <= j)%nat -> (j <= n)%nat -> g i <= g j).
  { intros i j Hi Hj. unfold g. fold (zq i) (zq j) (zq n). destruct (ratio_bounds i n Hn ltac:(lia)), (ratio_bounds j n Hn ltac:(lia)). apply quantile_mono; try assumption. now apply ratio_mono. }
  assert (Hq : forall i, (i <= n)%nat -> quantile_of (values xs) (zq i / zq n) (g i)).
  { intros i Hi. destruct (ratio_bounds i n Hn Hi). now apply quantile_ok. }
  set (l := map g (seq 0 (S n))). assert (Hl : StronglySorted Qle l) by (apply sorted_map_seq; intros i j _ H1 H2; apply Hg; lia).
  destruct (unique_spec l Hl) as (U1 & U2 & U3 & U4). set (u := unique_sorted l) in *.
  destruct (U4 (g 0%nat) (map g (seq 1 n)) eq_refl) as (c & t & Eu & Ec).
  assert (E0 : forall x, In x xs -> g 0%nat <= inject_Z x) by (intros x Hx; apply quantile_zero; [exact Hne|exact Hx|reflexivity]).
  assert (E1 : forall x, In x xs -> inject_Z x <= g n) by (intros x Hx; apply quantile_one; [exact Hne|exact Hx|fold (zq n); field; lra]).
  assert (Hinl : forall x, In x l <-> exists i, (i <= n)%nat /\ x = g i).
  { intros x. unfold l. rewrite in_map_iff. split; [intros (i & <- & Hi); apply in_seq in Hi; exists i; split; [lia|reflexivity]|intros (i & Hi & ->); exists i; split; [reflexivity|apply in_seq; lia]]. }
  rewrite Eu in U1, U2, U3. cbn [tl]. rewrite Eu. cbn [tl]. inversion U1 as [|? ? Ut Uc]. subst. rewrite Forall_forall in Uc.
  assert (Gmin : forall v, v == c -> forall x, In x xs -> v <= inject_Z x) by (intros v E x Hx; rewrite E, Ec; now apply E0).
  destruct t as [|t0 t'] eqn:Et.
  { cbn [removelast]. split; [constructor|]. split; [intros s []|]. intros i Hi. exists (g i). split; [now apply Hq|]. right. left.
    assert (Hin : In (g i) l) by (apply Hinl; eauto). apply U3, Exists_exists in Hin as (s & [<-|[]] & Es). apply Gmin. now symmetry. }
  rewrite <- Et in *. assert (Htn : t <> []) by (rewrite Et; discriminate). destruct (exists_last Htn) as (w & z & Ew).
  rewrite Ew in Ut, Uc, U2, U3 |- *. rewrite removelast_app by discriminate. cbn [removelast]. rewrite app_nil_r.
  destruct (sorted_app_lt w z Ut) as [Sw Lw].
  (* z is the largest quantile *)
  assert (Ez : g n <= z).
  { assert (Hin : In (g n) l) by (apply Hinl; eauto). apply U3, Exists_exists in Hin as (s & Hs & Es). rewrite <- Es. destruct Hs as [<-|Hs].
    - apply Qlt_le_weak, Uc, in_or_app. right. now left.
    - apply in_app_or in Hs as [Hs|[->|[]]]; [apply Qlt_le_weak; now apply Lw|apply Qle_refl]. }
  split; [exact Sw|]. split.
  - intros s Hs. assert (Hin : In s l) by (apply U2; right; apply in_or_app; now left). apply Hinl in Hin as (i & Hi & ->).
    exists i. split; [|now apply Hq]. assert (c < g i) by (apply Uc, in_or_app; now left). assert (g i < z) by (now apply Lw). split.
    + destruct i; [|lia]. rewrite Ec in H. exfalso. now apply (Qlt_irrefl (g 0%nat)).
    + destruct (Nat.eq_dec i n) as [->|]; [|lia]. exfalso. apply (Qlt_irrefl z). eapply Qle_lt_trans; [|exact H0].
      assert (Hin : In z l) by (apply U2; right; apply in_or_app; right; now left). apply Hinl in Hin as (j & Hj & ->). apply Hg; lia.
  - intros i Hi. exists (g i). split; [now apply Hq|]. assert (Hin : In (g i) l) by (apply Hinl; eauto). apply U3, Exists_exists in Hin as (s & [<-|Hs] & Es).
    + right. left. apply Gmin. now symmetry.
    + apply in_app_or in Hs as [Hs|[->|[]]]; [left; apply Exists_exists; eauto|]. right. right. intros x Hx. rewrite <- Es. eapply Qle_trans; [now apply E1|exact Ez].
Qed.
Open Scope nat_scope.
Lemma filter_same {A} (p q : A -> bool) l : (forall x, In x l -> p x = true -> q x = true) -> length (filter p l) = length (filter q l) -> forall x, In x l -> p x = q x.
Proof.
  induction l as [|a r IH]; intros H E x Hx; [destruct Hx|]. cbn in E. pose proof (H a (or_introl eq_refl)) as Ha.
  assert (Hr : forall x, In x r -> p x = true -> q x = true) by (intros y Hy; apply H; now right). pose proof (filter_le p q r Hr) as Hle.
  destruct (p a) eqn:Ep.
  - rewrite Ha in E by reflexivity. cbn in E. injection E as E. destruct Hx as [->|Hx]; [rewrite Ep; symmetry; auto|now apply IH].
  - destruct (q a) eqn:Eq; [cbn in E; lia|]. destruct Hx as [->|Hx]; [congruence|now apply IH].
Qed.
Lemma same_bin_iff splits x x' : same_bin splits x x' = Nat.eqb (digitize_q splits x') (digitize_q splits x).
Proof.
  unfold same_bin, digitize_q. apply eq_true_iff_eq. rewrite forallb_forall, Nat.eqb_eq. split.
  - intros H. f_equal. apply filter_ext_in. intros s Hs. specialize (H s Hs). apply eqb_prop in H. now rewrite H.
  - intros E s Hs. apply eqb_true_iff. destruct (Z.le_ge_cases x x') as [L|L].
    + symmetry in E. revert s Hs. apply filter_same; [|exact E]. intros s _ H. apply Qle_bool_iff in H. apply Qle_bool_iff. eapply Qle_trans; [exact H|]. now rewrite <- Zle_Qle.
    + symmetry. revert s Hs. apply filter_same; [|exact E]. intros s _ H. apply Qle_bool_iff in H. apply Qle_bool_iff. eapply Qle_trans; [exact H|]. now rewrite <- Zle_Qle.
Qed.
Lemma group_eq (f : Z -> nat) k : forall xs ys, length xs = length ys -> group (map f xs) ys k = map snd (filter (fun p => Nat.eqb (f (fst p)) k) (combine xs ys)).
Proof.
  unfold group. induction xs as [|x xs IH]; intros [|y ys] H; try discriminate; [reflexivity|]. injection H as H. specialize (IH ys H).
  cbn. destruct (Nat.eqb (f x) k); cbn; now rewrite IH.
Qed.
Lemma yquantile_ok d nb xs ys m : yquantile_fit d nb xs ys = Ok m -> xs <> [] -> length xs = length ys ->
  exists splits, quantile_splits (Z.to_nat nb) xs splits /\ length m = length xs /\
  forall i x y, nth_error xs i = Some x -> nth_error ys i = Some y ->
    exists b, nth_error m i = Some b /\ flag_right d (map snd (filter (fun p => same_bin splits x (fst p)) (combine xs ys))) y b.
Proof.
  unfold yquantile_fit. destruct (nb <=? 0)%Z eqn:E; [discriminate|]. apply Z.leb_gt in E. intros H Hne Hl.
  set (splits := y_splits (Z.to_nat nb) xs) in *. exists splits. split; [apply y_splits_ok; [lia|exact Hne]|].
  destruct (y_loop_spec d (map (digitize_q splits) xs) ys ltac:(rewrite map_length; exact Hl) _ _ _ (seq_NoDup _ _) ltac:(rewrite repeat_length; exact Hl) H) as [L G].
  split; [lia|]. intros i x y Hx Hy. assert (Hi : i < length ys) by (apply nth_error_Some; congruence).
  destruct (G i Hi) as [G1 _]. assert (Ei : nth i (map (digitize_q splits) xs) 0 = digitize_q splits x).
  { apply nth_error_nth. rewrite nth_error_map, Hx. reflexivity. }
  rewrite Ei in G1. destruct G1 as (f & _ & G2 & G3).
  { apply in_seq. unfold digitize_q. assert (length (filter (fun s => Qle_bool s (inject_Z x)) splits) <= length splits) by (clear; induction splits as [|s r IH]; cbn; [lia|destruct (Qle_bool s _); cbn; lia]). lia. }
  exists (f y). split.
  - rewrite (nth_error_nth' m i false) by lia. f_equal. rewrite G3. rewrite (nth_error_nth ys i 0%Z Hy).
    assert (Er : nth i (repeat false (length xs)) false = false) by apply nth_repeat. rewrite Er. apply orb_false_r.
  - assert (Eg : group (map (digitize_q splits) xs) ys (digitize_q splits x) = map snd (filter (fun p => same_bin splits x (fst p)) (combine xs ys))).
    { rewrite group_eq by exact Hl. f_equal. apply filter_ext. intros p. symmetry. apply same_bin_iff. }
    rewrite <- Eg. apply G2. rewrite Eg. intros E0.
    assert (Hin : In y (map snd (filter (fun p => same_bin splits x (fst p)) (combine xs ys)))).
    { apply in_map_iff. exists (x, y). split; [reflexivity|]. apply filter_In. split; [|rewrite same_bin_iff; apply Nat.eqb_refl].
      apply (nth_error_In _ i). clear - Hx Hy. revert ys i Hx Hy. induction xs as [|a xs IH]; intros [|b ys] [|i] Hx Hy; try discriminate; cbn in *; [congruence|]. now apply IH. }
    rewrite E0 in Hin. destruct Hin.
Qed.
