From Coq Require Import List ZArith Lia Bool Arith Reals Lra.
From Verif Require Import Model.Arr Model.Core Model.Cat Model.Metrics Model.Scorecard Model.Counterfactual Spec.CoreSpec Spec.ScoreSpec Spec.CounterfactualSpec
  Proofs.ArrP Proofs.MetricsP Proofs.MetricsQ.
Import ListNotations.
Open Scope R_scope.

(** ** candidates *)
Definition nrows (sm : bool) (metric : list R) : nat := if sm then length metric else (length metric - 2)%nat.
Lemma cand_rows (sm : bool) (metric : list R) : (if sm then metric else firstn (length metric - 2) metric) = firstn (nrows sm metric) metric.
Proof. destruct sm; cbn; [now rewrite firstn_all|reflexivity]. Qed.
Lemma nrows_le sm metric : (nrows sm metric <= length metric)%nat.
Proof. unfold nrows. destruct sm; lia. Qed.
Lemma combine_seq_in (l : list R) o j m : In (j, m) (combine (seq o (length l)) l) <-> (o <= j < o + length l)%nat /\ nth (j - o) l 0 = m.
Proof.
  revert o. induction l as [|a l IH]; intros o; cbn [length seq combine].
  - split; [intros []|intros [H _]; lia].
  - cbn [In]. rewrite IH. split.
    + intros [E|[H1 H2]]; [injection E as <- <-; split; [lia|]; now rewrite Nat.sub_diag|]. split; [lia|]. replace (j - o)%nat with (S (j - S o)) by lia. exact H2.
    + intros [H1 H2]. destruct (Nat.eq_dec j o) as [->|Hne]; [left; rewrite Nat.sub_diag in H2; cbn in H2; now rewrite H2|].
      right. split; [lia|]. replace (j - o)%nat with (S (j - S o)) in H2 by lia. exact H2.
Qed.
Lemma nth_firstn_lt k (l : list R) j : (j < k)%nat -> nth j (firstn k l) 0 = nth j l 0.
Proof. revert l j. induction k as [|k IH]; intros [|a l] [|j] H; cbn; try lia; try reflexivity. apply IH. lia. Qed.
Lemma cand_in sm metric a j m : In (j, m) (candidates sm metric a) <-> (j < nrows sm metric)%nat /\ nth j metric 0 = m /\ m <> a.
Proof.
  unfold candidates. rewrite cand_rows, filter_In, combine_seq_in. cbn [snd]. rewrite Nat.sub_0_r.
  assert (L : length (firstn (nrows sm metric) metric) = nrows sm metric) by (rewrite firstn_length; pose proof (nrows_le sm metric); lia). rewrite L.
  split.
  - intros [[H1 H2] H3]. destruct (Req_EM_T m a); [discriminate|]. rewrite nth_firstn_lt in H2 by lia. split; [lia|]. split; assumption.
  - intros (H1 & H2 & H3). rewrite nth_firstn_lt by lia. split; [split; [lia|exact H2]|]. destruct (Req_EM_T m a); [contradiction|reflexivity].
Qed.
Lemma combine_fst {A B} (l : list A) (l' : list B) : length l = length l' -> map fst (combine l l') = l.
Proof. revert l'. induction l as [|a l IH]; intros [|b l'] H; cbn in *; try discriminate; [reflexivity|]. f_equal. apply IH. lia. Qed.
Lemma nodup_filter_fst {B} (p : nat * B -> bool) l : NoDup (map fst l) -> NoDup (map fst (filter p l)).
Proof.
  induction l as [|a l IH]; intros H; cbn; [constructor|]. cbn in H. inversion H as [|? ? Hn Hd]; subst. destruct (p a); cbn; [|auto]. constructor; [|auto].
  intros K. apply Hn. apply in_map_iff in K as (b & <- & Hb). apply filter_In in Hb as [Hb _]. now apply in_map.
Qed.
Lemma cand_nodup sm metric a : NoDup (map fst (candidates sm metric a)).
Proof. unfold candidates. apply nodup_filter_fst. rewrite combine_fst by now rewrite seq_length. apply seq_NoDup. Qed.

(** ** selections *)
Definition shift_sum (x : R) (l : list (nat * R)) (zs : list bool) : R := rsum (map2 (fun jm b => (snd jm - x) * b2r b) l zs).
Lemma count0_all zs : count_true zs = 0%nat -> forall b, In b zs -> b = false.
Proof. induction zs as [|b r IH]; intros H c Hc; [contradiction|]. destruct b; cbn in H; [lia|]. destruct Hc as [<-|Hc]; auto. Qed.
Lemma sel0 {B} x (l : list (nat * R)) zs : count_true zs = 0%nat -> shift_sum x l zs = 0 /\ select zs (map fst l) = [] /\ forall (g : nat * R -> B), select zs (map g l) = [].
Proof.
  unfold shift_sum. revert zs. induction l as [|a l IH]; intros [|b zs] H; cbn; try (repeat split; reflexivity).
  destruct b; cbn in H; [lia|]. destruct (IH zs H) as (A & E & C). cbn. rewrite A, E. split; [ring|]. split; [reflexivity|]. intros g. apply C.
Qed.
Lemma sel_spec x l zs : length zs = length l -> (count_true zs <= 1)%nat ->
  (count_true zs = 0%nat /\ select zs (map fst l) = [] /\ shift_sum x l zs = 0) \/
  (count_true zs = 1%nat /\ exists j m, In (j, m) l /\ select zs (map fst l) = [j] /\ shift_sum x l zs = m - x).
Proof.
  revert zs. induction l as [|[j m] l IH]; intros [|b zs] Hl Hc; cbn in Hl; try discriminate; [left; repeat split; reflexivity|].
  destruct b; cbn [count_true] in Hc.
  - right. assert (C0 : count_true zs = 0%nat) by lia. destruct (@sel0 nat x l zs C0) as (A & B & _). cbn. rewrite C0. split; [reflexivity|]. exists j, m.
    split; [now left|]. cbn [map]. rewrite B. split; [reflexivity|]. unfold shift_sum in *. cbn [map2 rsum snd b2r]. rewrite A. ring.
  - destruct (IH zs ltac:(lia) Hc) as [(A & B & C)|(A & j' & m' & B & C & D)]; unfold shift_sum in *; cbn [map2 rsum snd b2r count_true select map].
    + left. split; [exact A|]. split; [exact B|]. rewrite C. ring.
    + right. split; [exact A|]. exists j', m'. split; [now right|]. split; [exact C|]. rewrite D. ring.
Qed.
Definition enc (c : option nat) (l : list (nat * R)) : list bool := map (fun jm => match c with Some j => Nat.eqb (fst jm) j | None => false end) l.
Definition dec (l : list (nat * R)) (zs : list bool) : option nat := match select zs (map fst l) with [j] => Some j | _ => None end.
Lemma enc_cons c i n l : enc c ((i, n) :: l) = (match c with Some j => Nat.eqb i j | None => false end) :: enc c l.
Proof. reflexivity. Qed.
Lemma enc_none l : count_true (enc None l) = 0%nat.
Proof. induction l; cbn; auto. Qed.
Lemma enc_absent j l : ~ In j (map fst l) -> enc (Some j) l = enc None l.
Proof. intros H. unfold enc. apply map_ext_in. intros [i m] Hi. cbn. apply Nat.eqb_neq. intros ->. apply H. apply in_map_iff. now exists (j, m). Qed.
Lemma enc_some j m x l : NoDup (map fst l) -> In (j, m) l ->
  count_true (enc (Some j) l) = 1%nat /\ select (enc (Some j) l) (map fst l) = [j] /\ shift_sum x l (enc (Some j) l) = m - x.
Proof.
  unfold shift_sum. induction l as [|[i n] l IH]; intros Hd Hi; [contradiction|]. cbn in Hd. inversion Hd as [|? ? Hn Hd']; subst.
  rewrite enc_cons. cbn [map fst]. destruct (Nat.eqb i j) eqn:E.
  - apply Nat.eqb_eq in E as ->. assert (Em : n = m). { destruct Hi as [Hi|Hi]; [now injection Hi|]. exfalso. apply Hn. apply in_map_iff. now exists (j, m). }
    subst n. pose proof (enc_absent j l Hn) as EA. rewrite EA.
    destruct (@sel0 nat x l (enc None l) (enc_none l)) as (A & B & _). unfold shift_sum in A. cbn [count_true select map2 rsum snd b2r]. rewrite enc_none, B, A.
    split; [reflexivity|]. split; [reflexivity|]. ring.
  - destruct Hi as [Hi|Hi]; [injection Hi as -> ->; rewrite Nat.eqb_refl in E; discriminate|]. destruct (IH Hd' Hi) as (A & B & C).
    cbn [count_true select map2 rsum snd b2r]. rewrite A, B, C. split; [reflexivity|]. split; [reflexivity|]. ring.
Qed.
Lemma enc_none_sel x l : select (enc None l) (map fst l) = [] /\ shift_sum x l (enc None l) = 0.
Proof. destruct (@sel0 nat x l (enc None l) (enc_none l)) as (A & B & _). auto. Qed.
Lemma all_false_enc l zs : length zs = length l -> count_true zs = 0%nat -> zs = enc None l.
Proof. revert zs. induction l as [|a l IH]; intros [|b zs] H C; cbn in *; try discriminate; [reflexivity|]. destruct b; [lia|]. f_equal. apply IH; lia. Qed.
Lemma z_enc l zs : NoDup (map fst l) -> length zs = length l -> (count_true zs <= 1)%nat -> zs = enc (dec l zs) l.
Proof.
  intros Hd Hl Hc. unfold dec. destruct (sel_spec 0 l zs Hl Hc) as [(A & B & _)|(A & j & m & Hi & B & _)]; rewrite B; [now apply all_false_enc|].
  clear - Hd Hl Hc A B. revert zs Hl Hc A B. induction l as [|[i n] l IH]; intros [|b zs] Hl Hc A B; cbn in Hl; try discriminate.
  cbn in Hd. inversion Hd as [|? ? Hn Hd']; subst. rewrite enc_cons. destruct b; cbn [select map fst] in B.
  - injection B as -> B. rewrite Nat.eqb_refl. f_equal. cbn in A. rewrite (enc_absent j l Hn). apply all_false_enc; lia.
  - cbn in A, Hc. assert (Hj : In j (map fst l)).
    { assert (G : forall (z : list bool) (t : list nat), In j (select z t) -> In j t).
      { induction z as [|[|] z IHz]; intros [|a t] H; cbn in *; try contradiction; [destruct H as [<-|H]; [now left|right; auto]|right; auto]. }
      apply (G zs). rewrite B. now left. }
    destruct (Nat.eqb i j) eqn:E; [apply Nat.eqb_eq in E as ->; contradiction|]. f_equal. apply IH; auto.
Qed.
Lemma dec_enc j m l : NoDup (map fst l) -> In (j, m) l -> dec l (enc (Some j) l) = Some j.
Proof. intros Hd Hi. unfold dec. destruct (enc_some j m 0 l Hd Hi) as (_ & -> & _). reflexivity. Qed.

(** ** exclusive or *)
Lemma is_xor_bool u a b : is_xor u (b2z a) (b2z b) <-> u = xorb a b.
Proof. unfold is_xor. destruct u, a, b; cbn; split; intros H; try reflexivity; try discriminate; lia. Qed.
Definition xorl (a b : list bool) : list bool := map2 xorb a b.
Lemma xorl_unique d a b : length d = length a -> length a = length b ->
  (forall j, (j < length a)%nat -> nth j d false = xorb (nth j a false) (nth j b false)) -> d = xorl a b.
Proof.
  revert a b. induction d as [|x d IH]; intros [|y a] [|w b] H1 H2 H; cbn in *; try discriminate; [reflexivity|]. f_equal; [apply (H 0%nat); lia|].
  apply IH; try lia. intros j Hj. apply (H (S j)). lia.
Qed.
Lemma nth_xorl a b j : length a = length b -> (j < length a)%nat -> nth j (xorl a b) false = xorb (nth j a false) (nth j b false).
Proof. revert b j. induction a as [|x a IH]; intros [|y b] [|j] H Hj; cbn in *; try discriminate; try lia; try reflexivity; apply IH; lia. Qed.
Lemma xorl_length a b : length a = length b -> length (xorl a b) = length a.
Proof. revert b. induction a as [|x a IH]; intros [|y b] H; cbn in *; try discriminate; [reflexivity|]. f_equal. apply IH. lia. Qed.
Lemma xor_enc l c c' : NoDup (map fst l) -> (forall j, c = Some j -> In j (map fst l)) -> (forall j, c' = Some j -> In j (map fst l)) ->
  count_true (xorl (enc c l) (enc c' l)) = values_apart1 c c'.
Proof.
  intros Hd Hc Hc'.
  assert (C1 : forall j, In j (map fst l) -> count_true (enc (Some j) l) = 1%nat).
  { intros j Hj. apply in_map_iff in Hj as ([j' m] & E & Hj). cbn in E. subst j'. exact (proj1 (enc_some j m 0 l Hd Hj)). }
  assert (X : forall a b, length a = length b -> (count_true (xorl a b) + 2 * count_true (map2 andb a b) = count_true a + count_true b)%nat).
  { induction a as [|x a IH]; intros [|y b] H; cbn [length] in H; try discriminate; [reflexivity|]. assert (Hl : length a = length b) by lia. specialize (IH b Hl). unfold xorl in *. destruct x, y; cbn [map2 xorb andb count_true] in *; lia. }
  assert (L : length (enc c l) = length (enc c' l)) by (unfold enc; now rewrite !map_length).
  specialize (X _ _ L).
  assert (A : count_true (map2 andb (enc c l) (enc c' l)) = match c, c' with Some j, Some j' => if Nat.eqb j j' then 1%nat else 0%nat | _, _ => 0%nat end).
  { assert (E : map2 andb (enc c l) (enc c' l) = enc (match c, c' with Some j, Some j' => if Nat.eqb j j' then Some j else None | _, _ => None end) l).
    { clear. unfold enc. induction l as [|[i m] l IH]; cbn [map map2]; [reflexivity|]. rewrite IH. f_equal. cbn [fst].
      destruct c as [j|], c' as [j'|]; try reflexivity; [|apply andb_false_r]. destruct (Nat.eqb j j') eqn:E.
      - apply Nat.eqb_eq in E as ->. now destruct (Nat.eqb i j').
      - destruct (Nat.eqb i j) eqn:E1, (Nat.eqb i j') eqn:E2; try reflexivity. apply Nat.eqb_eq in E1, E2. subst. rewrite Nat.eqb_refl in E. discriminate. }
    rewrite E. destruct c as [j|], c' as [j'|]; try apply enc_none. destruct (Nat.eqb j j'); [apply C1; auto|apply enc_none]. }
  rewrite A in X. unfold values_apart1. destruct c as [j|], c' as [j'|].
  - rewrite !C1 in X by auto. destruct (Nat.eqb j j'); lia.
  - rewrite C1, enc_none in X by auto. lia.
  - rewrite (C1 j'), enc_none in X by auto. lia.
  - rewrite !enc_none in X. lia.
Qed.
