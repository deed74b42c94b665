From Coq Require Import List ZArith Bool Arith Lia Sorting.
From Verif Require Import Model.Arr Model.CP Spec.CPSpec Proofs.ArrP.
Import ListNotations.
Open Scope Z_scope.

(** ** Sums over ranges *)
Lemma sum_range_nil lo hi f : (hi <= lo)%nat -> sum_range lo hi f = 0.
Proof. intros H. unfold sum_range. replace (hi - lo)%nat with O by lia. reflexivity. Qed.
Lemma sum_range_S lo hi f : (lo <= hi)%nat -> sum_range lo (S hi) f = sum_range lo hi f + f hi.
Proof.
  intros H. unfold sum_range. replace (S hi - lo)%nat with (S (hi - lo)) by lia.
  rewrite seq_S, map_app, zsum_app. cbn [map zsum]. replace (lo + (hi - lo))%nat with hi by lia. lia.
Qed.
Lemma sum_range_split lo mid hi f : (lo <= mid)%nat -> (mid <= hi)%nat ->
  sum_range lo hi f = sum_range lo mid f + sum_range mid hi f.
Proof.
  intros H1 H2. unfold sum_range. replace (hi - lo)%nat with ((mid - lo) + (hi - mid))%nat by lia.
  rewrite seq_app, map_app, zsum_app. now replace (lo + (mid - lo))%nat with mid by lia.
Qed.
Lemma sum_range_ext lo hi f g : (forall k, (lo <= k < hi)%nat -> f k = g k) ->
  sum_range lo hi f = sum_range lo hi g.
Proof. intros H. unfold sum_range. apply zsum_map_ext. intros k Hk. apply in_seq in Hk. apply H. lia. Qed.
Lemma sum_range_zero lo hi f : (forall k, (lo <= k < hi)%nat -> f k = 0) -> sum_range lo hi f = 0.
Proof.
  intros H. rewrite (sum_range_ext lo hi f (fun _ => 0) H). unfold sum_range.
  induction (seq lo (hi - lo)); cbn; lia.
Qed.
Lemma sum_range_nonneg lo hi f : (forall k, (lo <= k < hi)%nat -> 0 <= f k) -> 0 <= sum_range lo hi f.
Proof.
  destruct (Nat.le_gt_cases lo hi) as [Hle|Hle]; [|rewrite sum_range_nil by lia; lia].
  induction Hle as [|hi Hle IH]; intros H; [rewrite sum_range_nil; lia|].
  rewrite sum_range_S by lia. specialize (H hi) as H1. assert (0 <= sum_range lo hi f) by (apply IH; intros; apply H; lia). lia.
Qed.
Lemma sum_range_le lo hi f g : (forall k, (lo <= k < hi)%nat -> f k <= g k) -> sum_range lo hi f <= sum_range lo hi g.
Proof.
  destruct (Nat.le_gt_cases lo hi) as [Hle|Hle]; [|rewrite !sum_range_nil by lia; lia].
  induction Hle as [|hi Hle IH]; intros H; [rewrite !sum_range_nil; lia|].
  rewrite !sum_range_S by lia. specialize (H hi) as H1.
  assert (sum_range lo hi f <= sum_range lo hi g) by (apply IH; intros; apply H; lia). lia.
Qed.
Lemma sum_range_tele lo hi (F : nat -> Z) : (lo <= hi)%nat ->
  sum_range lo hi (fun j => F j - F (S j)) = F lo - F hi.
Proof.
  intros H. induction H as [|hi H IH]; [rewrite sum_range_nil; lia|].
  rewrite sum_range_S by lia. rewrite IH. lia.
Qed.
(** 0/1 sums *)
Lemma sum01_one lo hi f : (forall k, (lo <= k < hi)%nat -> f k = 0 \/ f k = 1) ->
  sum_range lo hi f = 1 <->
  exists k, (lo <= k < hi)%nat /\ f k = 1 /\ forall k', (lo <= k' < hi)%nat -> f k' = 1 -> k' = k.
Proof.
  intros H01. split.
  - destruct (Nat.le_gt_cases lo hi) as [Hle|Hle]; [|intros E; rewrite sum_range_nil in E by lia; lia].
    induction Hle as [|hi Hle IH]; intros E; [rewrite sum_range_nil in E; lia|].
    rewrite sum_range_S in E by lia.
    destruct (H01 hi) as [E0|E1]; [lia| |].
    + destruct IH as (k & Hk & Ek & Hu); [intros; apply H01; lia|lia|].
      exists k. repeat split; try lia; try exact Ek. intros k' Hk' Ek'.
      destruct (Nat.eq_dec k' hi) as [->|Hne]; [lia|]. apply Hu; [lia|exact Ek'].
    + exists hi. repeat split; try lia. intros k' Hk' Ek'.
      destruct (Nat.eq_dec k' hi) as [->|Hne]; [lia|]. exfalso.
      assert (1 <= sum_range lo hi f).
      { rewrite (sum_range_split lo k' hi) by lia. rewrite (sum_range_split k' (S k') hi) by lia.
        assert (0 <= sum_range lo k' f) by (apply sum_range_nonneg; intros k Hk; destruct (H01 k); lia).
        assert (0 <= sum_range (S k') hi f) by (apply sum_range_nonneg; intros k Hk; destruct (H01 k); lia).
        rewrite sum_range_S by lia. rewrite (sum_range_nil k' k') by lia. lia. }
      lia.
  - intros (k & Hk & Ek & Hu).
    rewrite (sum_range_split lo k hi) by lia. rewrite (sum_range_split k (S k) hi) by lia.
    rewrite sum_range_S by lia. rewrite (sum_range_nil k k) by lia.
    rewrite (sum_range_zero lo k). 2:{ intros k' Hk'. destruct (H01 k') as [E|E]; [lia|exact E|]. specialize (Hu k'). lia. }
    rewrite (sum_range_zero (S k) hi). 2:{ intros k' Hk'. destruct (H01 k') as [E|E]; [lia|exact E|]. specialize (Hu k'). lia. }
    lia.
Qed.

(** ** Chains *)
Lemma chain_le a n gs : chain a n gs -> (a <= n)%nat.
Proof. induction 1; lia. Qed.
Lemma chain_in a n gs s e : chain a n gs -> In (s, e) gs -> (a <= s /\ s <= e /\ e < n)%nat.
Proof.
  induction 1 as [n|s0 e0 n gs H1 H2 IH]; intros Hin; [destruct Hin|].
  destruct Hin as [E|Hin].
  - injection E as <- <-. apply chain_le in H2. lia.
  - apply IH in Hin. lia.
Qed.
Lemma chain_inj_e a n gs s s' e : chain a n gs -> In (s, e) gs -> In (s', e) gs -> s = s'.
Proof.
  induction 1 as [n|s0 e0 n gs H1 H2 IH]; intros Ha Hb; [destruct Ha|].
  destruct Ha as [Ea|Ha], Hb as [Eb|Hb]; [congruence| | |auto].
  - injection Ea as <- <-. apply (chain_in _ _ _ _ _ H2) in Hb. lia.
  - injection Eb as <- <-. apply (chain_in _ _ _ _ _ H2) in Ha. lia.
Qed.
Lemma chain_disj a n gs s e s' e' i : chain a n gs -> In (s, e) gs -> In (s', e') gs ->
  (s <= i <= e)%nat -> (s' <= i <= e')%nat -> s = s' /\ e = e'.
Proof.
  induction 1 as [n|s0 e0 n gs H1 H2 IH]; intros Ha Hb Hi Hi'; [destruct Ha|].
  destruct Ha as [Ea|Ha], Hb as [Eb|Hb]; [split; congruence| | |auto].
  - injection Ea as <- <-. apply (chain_in _ _ _ _ _ H2) in Hb. lia.
  - injection Eb as <- <-. apply (chain_in _ _ _ _ _ H2) in Ha. lia.
Qed.
Lemma chain_cover a n gs i : chain a n gs -> (a <= i < n)%nat -> exists s e, In (s, e) gs /\ (s <= i <= e)%nat.
Proof.
  induction 1 as [n|s0 e0 n gs H1 H2 IH]; intros Hi; [lia|].
  destruct (Nat.le_gt_cases i e0) as [Hle|Hgt].
  - exists s0, e0. split; [now left|lia].
  - destruct IH as (s & e & Hin & Hse); [lia|]. exists s, e. split; [now right|exact Hse].
Qed.
Lemma chain_last a n gs : (a < n)%nat -> chain a n gs -> exists s, In (s, n - 1)%nat gs.
Proof.
  intros Hlt H. destruct (chain_cover a n gs (n - 1) H) as (s & e & Hin & Hse); [lia|].
  pose proof (chain_in _ _ _ _ _ H Hin). exists s. now replace (n - 1)%nat with e by lia.
Qed.
Lemma chain_pairs a n gs (P : group -> group -> Prop) : chain a n gs ->
  (all_pairs P gs <-> forall s1 e1 s2 e2, In (s1, e1) gs -> In (s2, e2) gs -> (e1 < e2)%nat -> P (s1, e1) (s2, e2)).
Proof.
  unfold all_pairs.
  induction 1 as [n|s0 e0 n gs H1 H2 IH]; split; intros H.
  - intros ? ? ? ? [].
  - constructor.
  - inversion H as [|? ? Hf Hr]; subst. rewrite Forall_forall in Hf.
    intros s1 e1 s2 e2 [E1|I1] [E2|I2] Hlt.
    + injection E1 as <- <-. injection E2 as <- <-. lia.
    + injection E1 as <- <-. auto.
    + injection E2 as <- <-. apply (chain_in _ _ _ _ _ H2) in I1. lia.
    + apply (proj1 IH Hr); assumption.
  - constructor.
    + apply Forall_forall. intros [s e] Hin. apply H; [now left|now right|].
      apply (chain_in _ _ _ _ _ H2) in Hin. lia.
    + apply IH. intros s1 e1 s2 e2 I1 I2. apply H; now right.
Qed.
Lemma chain_neighbours a n gs (P : group -> group -> Prop) : chain a n gs ->
  (neighbours P gs <-> forall s1 e1 e2, In (s1, e1) gs -> In (S e1, e2) gs -> P (s1, e1) (S e1, e2)).
Proof.
  induction 1 as [n|s0 e0 n gs H1 H2 IH]; split; intros H.
  - intros ? ? ? [].
  - exact I.
  - intros s1 e1 e2 [E1|I1] [E2|I2].
    + injection E1 as <- <-. injection E2 as E2 <-. lia.
    + injection E1 as <- <-. inversion H2 as [|? e n' gs' H3 H4]; subst; [destruct I2|].
      destruct H as [H _]. destruct I2 as [E|I2]; [injection E as <-; exact H|].
      apply (chain_in _ _ _ _ _ H4) in I2. lia.
    + injection E2 as E2 <-. apply (chain_in _ _ _ _ _ H2) in I1. lia.
    + inversion H2 as [|? e n' gs' H3 H4]; subst; [destruct I1|]. destruct H as [_ H]. apply (proj1 IH H); assumption.
  - inversion H2 as [|? e n' gs' H3 H4]; subst; [exact I|]. split.
    + apply H; [now left|right; now left].
    + apply IH. intros; apply H; now right.
Qed.
Lemma chain_app a n g1 g2 : chain a n (g1 ++ g2) -> exists m, chain a m g1 /\ chain m n g2.
Proof.
  revert a. induction g1 as [|g g1 IH]; intros a H; cbn in H.
  - exists a. split; [constructor|exact H].
  - inversion H as [|s e n' gs' H1 H2]; subst. destruct (IH _ H2) as (m & Ha & Hb).
    exists m. split; [now constructor|exact Hb].
Qed.
Lemma chain_split_at a n gs c : chain a n gs -> exists g1 g2, gs = g1 ++ g2 /\
  (forall s e, In (s, e) g1 -> (e < c)%nat) /\ (forall s e, In (s, e) g2 -> (c <= e)%nat).
Proof.
  induction 1 as [n|s0 e0 n gs H1 H2 (g1 & g2 & E & Ha & Hb)].
  - exists [], []. repeat split; intros ? ? [].
  - destruct (Nat.lt_ge_cases e0 c) as [Hlt|Hge].
    + exists ((s0, e0) :: g1), g2. subst gs. split; [reflexivity|]. split; [|exact Hb].
      intros s e [E|Hin]; [injection E as <- <-; exact Hlt|eauto].
    + exists [], ((s0, e0) :: gs). split; [reflexivity|]. split; [intros ? ? []|].
      intros s e [E'|Hin]; [injection E' as <- <-; exact Hge|]. apply (chain_in _ _ _ _ _ H2) in Hin. lia.
Qed.

(** ** Matrices and partitions *)
Notation represents := describes (only parsing).

Definition structural (n : nat) (X : mat) : Prop :=
  bool_vars n X /\ unique_assignment n X /\ continuity n X.

Definition mat_of (gs : list group) : mat :=
  fun i j => if existsb (fun g => Nat.eqb (snd g) i && Nat.leb (fst g) j) gs then 1 else 0.

Lemma mat_of_represents n gs : represents n gs (mat_of gs).
Proof.
  intros i j Hi Hj. unfold mat_of. match goal with |- context [existsb ?f gs] => destruct (existsb f gs) eqn:E end.
  - split; [now right|]. split; [intros _|reflexivity].
    apply existsb_exists in E. destruct E as ([s e] & Hin & Hb). cbn in Hb.
    apply andb_true_iff in Hb. destruct Hb as [Hb1 Hb2]. apply Nat.eqb_eq in Hb1. apply Nat.leb_le in Hb2.
    subst e. eauto.
  - split; [now left|]. split; [discriminate|]. intros (s & Hin & Hs). exfalso.
    apply not_true_iff_false in E. apply E, existsb_exists. exists (s, i). split; [exact Hin|]. cbn.
    rewrite Nat.eqb_refl. now apply Nat.leb_le in Hs as ->.
Qed.

Lemma cont_up n X i j k : bool_vars n X -> continuity n X -> (i < n)%nat -> (j <= k)%nat -> (k <= i)%nat ->
  X i j = 1 -> X i k = 1.
Proof.
  intros Hb Hc Hi Hjk. induction Hjk as [|k Hjk IH]; intros Hki E; [exact E|].
  assert (X i k = 1) by (apply IH; [lia|exact E]). specialize (Hc i k Hi ltac:(lia)).
  destruct (Hb i (S k)); lia.
Qed.

Section Struct.
Variables (n : nat) (X : mat).
Hypothesis HS : structural n X.
Definition sel (i : nat) : bool := Z.eqb (X i i) 1.

Lemma col j : (j < n)%nat -> exists i, (j <= i < n)%nat /\ X i j = 1 /\
  forall i', (j <= i' < n)%nat -> X i' j = 1 -> i' = i.
Proof.
  destruct HS as (Hb & Hu & Hc). intros Hj. apply (sum01_one j n (fun i => X i j)).
  - intros k Hk. apply Hb; lia.
  - apply Hu. exact Hj.
Qed.
Lemma X_char i j : (i < n)%nat -> (j <= i)%nat ->
  X i j = 1 <-> sel i = true /\ forall k, (j <= k < i)%nat -> sel k = false.
Proof.
  destruct HS as (Hb & Hu & Hc). intros Hi Hj. split.
  - intros E. split.
    + apply Z.eqb_eq. eapply cont_up; eauto.
    + intros k Hk. apply not_true_iff_false. intros Es. apply Z.eqb_eq in Es.
      assert (X i k = 1) by (apply (cont_up n X i j k); auto; lia).
      destruct (col k) as (c & _ & _ & Huq); [lia|].
      pose proof (Huq k ltac:(lia) Es). pose proof (Huq i ltac:(lia) H). lia.
  - intros [Es Hno]. destruct (col j) as (c & Hcn & Ec & _); [lia|].
    assert (Ecc : X c c = 1) by (apply (cont_up n X c j c); auto; lia).
    destruct (lt_eq_lt_dec c i) as [[Hlt|Heq]|Hgt].
    + specialize (Hno c ltac:(lia)). unfold sel in Hno. apply Z.eqb_neq in Hno. contradiction.
    + now subst c.
    + assert (X c i = 1) by (apply (cont_up n X c j i); auto; lia).
      destruct (col i) as (c' & _ & _ & Huq); [lia|]. apply Z.eqb_eq in Es.
      pose proof (Huq i ltac:(lia) Es). pose proof (Huq c ltac:(lia) H). lia.
Qed.
End Struct.

(** groups of an arbitrary selection of ends *)
Lemma groups_ex (f : nat -> bool) n : forall k a, (k = n - a)%nat -> (a < n)%nat -> f (n - 1)%nat = true ->
  exists gs, chain a n gs /\ forall i j, (a <= j)%nat -> (j <= i)%nat -> (i < n)%nat ->
    ((exists s, In (s, i) gs /\ (s <= j)%nat) <-> f i = true /\ forall k, (j <= k < i)%nat -> f k = false).
Proof.
  intros k. induction k as [k IHk] using (well_founded_induction lt_wf). intros a Hk Ha Hf.
  (* first true at or after a *)
  assert (Hex : exists e, (a <= e < n)%nat /\ f e = true /\ forall i, (a <= i < e)%nat -> f i = false).
  { clear IHk k Hk. remember (n - 1 - a)%nat as m. revert a Ha Heqm. induction m as [|m IH]; intros a Ha Hm.
    - exists (n - 1)%nat. split; [lia|]. split; [exact Hf|]. intros; lia.
    - destruct (f a) eqn:Efa; [exists a; split; [lia|]; split; [exact Efa|intros; lia]|].
      destruct (IH (S a)) as (e & He & Ef & Hno); [lia|lia|]. exists e. split; [lia|]. split; [exact Ef|].
      intros i Hi. destruct (Nat.eq_dec i a) as [->|]; [exact Efa|]. apply Hno. lia. }
  destruct Hex as (e & He & Ef & Hno).
  destruct (Nat.eq_dec (S e) n) as [Heq|Hne].
  - exists [(a, e)]. split; [constructor; [lia|]; rewrite Heq; constructor|].
    intros i j Haj Hji Hin. split.
    + intros (s & [E|[]] & Hs). injection E as <- <-. split; [exact Ef|]. intros; apply Hno; lia.
    + intros [Ei Hnoi]. assert (i = e). { destruct (Nat.lt_ge_cases i e); [rewrite Hno in Ei by lia; discriminate|lia]. }
      subst i. exists a. split; [now left|lia].
  - destruct (IHk (n - S e)%nat) with (a := S e) as (gs & Hc & Hgs); [lia|lia|lia|exact Hf|].
    exists ((a, e) :: gs). split; [constructor; [lia|exact Hc]|].
    intros i j Haj Hji Hin. destruct (Nat.le_gt_cases i e) as [Hle|Hgt].
    + split.
      * intros (s & [E|Hs] & Hsj); [injection E as <- <-; split; [exact Ef|intros; apply Hno; lia]|].
        apply (chain_in _ _ _ _ _ Hc) in Hs. lia.
      * intros [Ei Hnoi]. assert (i = e). { destruct (Nat.lt_ge_cases i e); [rewrite Hno in Ei by lia; discriminate|lia]. }
        subst i. exists a. split; [now left|lia].
    + destruct (Nat.le_gt_cases j e) as [Hj|Hj].
      * split.
        -- intros (s & [E|Hs] & Hsj); [injection E as <- <-; lia|]. apply (chain_in _ _ _ _ _ Hc) in Hs. lia.
        -- intros [Ei Hnoi]. rewrite Hnoi in Ef by lia. discriminate.
      * rewrite <- (Hgs i j) by lia. split; intros (s & Hs & Hsj); exists s.
        -- destruct Hs as [E|Hs]; [injection E as <- <-; lia|]. auto.
        -- split; [now right|exact Hsj].
Qed.

Lemma structural_partition n X : (0 < n)%nat -> structural n X ->
  exists gs, partition n gs /\ represents n gs X.
Proof.
  intros Hn HS.
  destruct (groups_ex (sel X) n n 0) as (gs & Hc & Hgs); [lia|lia| |].
  - destruct (col n X HS (n - 1)) as (i & Hi & E & _); [lia|]. replace i with (n - 1)%nat in E by lia.
    unfold sel. now rewrite E.
  - exists gs. split; [exact Hc|]. intros i j Hi Hj. split; [apply HS; lia|].
    rewrite (X_char n X HS i j Hi Hj). symmetry. apply Hgs; lia.
Qed.

Lemma represents_structural n gs X : partition n gs -> represents n gs X -> structural n X.
Proof.
  intros Hp Hr. split; [intros i j Hi Hj; apply Hr; assumption|]. split.
  - intros j Hj. apply sum01_one; [intros k Hk; apply Hr; lia|].
    destruct (chain_cover _ _ _ j Hp) as (s & e & Hin & Hse); [lia|].
    pose proof (chain_in _ _ _ _ _ Hp Hin) as Hb.
    exists e. split; [lia|]. split; [apply Hr; [lia|lia|]; exists s; split; [exact Hin|lia]|].
    intros i' Hi' E. apply Hr in E; [|lia|lia]. destruct E as (s' & Hin' & Hs').
    destruct (chain_disj _ _ _ _ _ _ _ j Hp Hin Hin') as [_ ->]; [lia|lia|reflexivity].
  - intros i j Hi Hj. destruct (proj1 (Hr i j Hi ltac:(lia))) as [E|E]; destruct (proj1 (Hr i (S j) Hi ltac:(lia))) as [E'|E']; try lia.
    apply Hr in E; [|lia|lia]. destruct E as (s & Hin & Hs).
    assert (X i (S j) = 1) by (apply Hr; [lia|lia|]; exists s; split; [exact Hin|lia]). lia.
Qed.

Section Rep.
Variables (n : nat) (gs : list group) (X : mat).
Hypothesis Hp : partition n gs.
Hypothesis Hr : represents n gs X.

Lemma X_in s e j : In (s, e) gs -> (s <= j)%nat -> (j <= e)%nat -> X e j = 1.
Proof. intros Hin H1 H2. pose proof (chain_in _ _ _ _ _ Hp Hin). apply Hr; [lia|lia|eauto]. Qed.
Lemma X_before s e j : In (s, e) gs -> (j < s)%nat -> X e j = 0.
Proof.
  intros Hin H1. pose proof (chain_in _ _ _ _ _ Hp Hin). destruct (proj1 (Hr e j ltac:(lia) ltac:(lia))) as [E|E]; [exact E|].
  apply Hr in E; [|lia|lia]. destruct E as (s' & Hin' & Hs'). pose proof (chain_inj_e _ _ _ _ _ _ Hp Hin Hin'). lia.
Qed.
Lemma X_not_end i j : (i < n)%nat -> (j <= i)%nat -> (forall s, ~ In (s, i) gs) -> X i j = 0.
Proof.
  intros Hi Hj Hno. destruct (proj1 (Hr i j Hi Hj)) as [E|E]; [exact E|]. apply Hr in E; [|lia|lia].
  destruct E as (s & Hin & _). now apply Hno in Hin.
Qed.
Lemma end_dec i : (exists s, In (s, i) gs) \/ (forall s, ~ In (s, i) gs).
Proof.
  destruct (existsb (fun g => Nat.eqb (snd g) i) gs) eqn:E.
  - left. apply existsb_exists in E. destruct E as ([s e] & Hin & He). apply Nat.eqb_eq in He. cbn in He. subst. eauto.
  - right. intros s Hin. apply not_true_iff_false in E. apply E, existsb_exists. exists (s, i).
    split; [exact Hin|]. cbn. apply Nat.eqb_refl.
Qed.
Lemma diag_end i : (i < n)%nat -> X i i = 1 <-> exists s, In (s, i) gs.
Proof.
  intros Hi. rewrite (proj2 (Hr i i Hi ltac:(lia))). split; intros (s & H); [exists s; tauto|].
  exists s. split; [exact H|]. pose proof (chain_in _ _ _ _ _ Hp H). lia.
Qed.
Lemma row_size_end cnt s e : In (s, e) gs -> row_size cnt X e = sum_range s (S e) cnt.
Proof.
  intros Hin. pose proof (chain_in _ _ _ _ _ Hp Hin) as Hb. unfold row_size.
  rewrite (sum_range_split 0 s (S e)) by lia.
  rewrite (sum_range_zero 0 s). 2:{ intros k Hk. rewrite (X_before s e k Hin) by lia. lia. }
  rewrite Z.add_0_l. apply sum_range_ext. intros k Hk. rewrite (X_in s e k Hin) by lia. lia.
Qed.
Lemma row_size_other cnt i : (i < n)%nat -> (forall s, ~ In (s, i) gs) -> row_size cnt X i = 0.
Proof.
  intros Hi Hno. unfold row_size. apply sum_range_zero. intros k Hk. rewrite (X_not_end i k) by (auto; lia). lia.
Qed.
Lemma tele_end D s e : In (s, e) gs -> tele D X e = D e s - D e e.
Proof.
  intros Hin. pose proof (chain_in _ _ _ _ _ Hp Hin) as Hb. unfold tele.
  rewrite (sum_range_split 0 s e) by lia.
  rewrite (sum_range_zero 0 s). 2:{ intros k Hk. rewrite (X_before s e k Hin) by lia. lia. }
  rewrite Z.add_0_l. rewrite <- (sum_range_tele s e (fun j => D e j)) by lia.
  apply sum_range_ext. intros k Hk. rewrite (X_in s e k Hin) by lia. lia.
Qed.
Lemma tele_other D i : (i < n)%nat -> (forall s, ~ In (s, i) gs) -> tele D X i = 0.
Proof.
  intros Hi Hno. unfold tele. apply sum_range_zero. intros k Hk. rewrite (X_not_end i k) by (auto; lia). lia.
Qed.
Lemma diag1 s e : In (s, e) gs -> X e e = 1.
Proof. intros Hin. pose proof (chain_in _ _ _ _ _ Hp Hin). apply (X_in s e e Hin); lia. Qed.
Lemma diag0 i : (i < n)%nat -> (forall s, ~ In (s, i) gs) -> X i i = 0.
Proof. intros Hi Hno. apply X_not_end; auto. Qed.
Lemma row_rate_end D s e : In (s, e) gs -> row_rate D X e = D e s.
Proof. intros Hin. unfold row_rate. rewrite (tele_end D s e Hin), (diag1 s e Hin). lia. Qed.
Lemma row_rate_other D i : (i < n)%nat -> (forall s, ~ In (s, i) gs) -> row_rate D X i = 0.
Proof. intros Hi Hno. unfold row_rate. rewrite tele_other, diag0 by auto. lia. Qed.
End Rep.

(** sums over rows that vanish outside group ends *)
Lemma sum_over_ends (F : nat -> Z) a n gs : chain a n gs ->
  (forall i, (a <= i < n)%nat -> (forall s, ~ In (s, i) gs) -> F i = 0) ->
  sum_range a n F = zsum (map (fun g => F (snd g)) gs).
Proof.
  induction 1 as [n|s e n gs H1 H2 IH]; intros H0; [rewrite sum_range_nil by lia; reflexivity|].
  pose proof (chain_le _ _ _ H2). cbn [map zsum snd].
  rewrite (sum_range_split s (S e) n) by lia. rewrite sum_range_S by lia.
  rewrite (sum_range_zero s e).
  2:{ intros k Hk. apply H0; [lia|]. intros s' [E|Hin]; [injection E as <- <-; lia|].
      apply (chain_in _ _ _ _ _ H2) in Hin. lia. }
  rewrite IH; [lia|]. intros i Hi Hno. apply H0; [lia|].
  intros s' [E|Hin]; [injection E as <- <-; lia|]. now apply Hno in Hin.
Qed.

Lemma trace_length n gs X : partition n gs -> represents n gs X ->
  sum_range 0 n (fun i => X i i) = Z.of_nat (length gs).
Proof.
  intros Hp Hr. rewrite (sum_over_ends (fun i => X i i) 0 n gs Hp).
  - rewrite (zsum_map_ext _ (fun _ => 1)).
    + clear. induction gs as [|g r IH]; [reflexivity|]. cbn [map zsum length]. rewrite IH. lia.
    + intros [s e] Hin. exact (diag1 n gs X Hp Hr s e Hin).
  - intros i Hi Hno. apply (diag0 n gs X Hr); auto; lia.
Qed.
