From Coq Require Import List ZArith QArith Lia Bool Arith Permutation.
From Verif Require Import Model.Arr Model.Core Model.TwoD Spec.CoreSpec Spec.TwoDSpec Proofs.ArrP Proofs.CoreP Proofs.TwoDP Proofs.TwoDQ Proofs.TwoDR.
Import ListNotations.
Open Scope nat_scope.

Lemma lo_ok_edge s j x : nondecreasing s -> j <= length s -> lo_ok (edge s j) x = (j <=? digitize s x).
Proof.
  intros Hs Hj. pose proof (digitize_ge s x j Hs Hj) as H. rewrite edge_nth in H by lia. unfold lo_ok. destruct (edge s j) as [a|].
  - destruct (Z.leb_spec a x); destruct (Nat.leb_spec j (digitize s x)); try reflexivity; exfalso; [|apply H in H1; lia]. apply H in H0. lia.
  - symmetry. apply Nat.leb_le. now apply H.
Qed.
Lemma hi_ok_edge s k x : nondecreasing s -> 1 <= k -> k <= S (length s) -> hi_ok (edge s k) x = (digitize s x <? k).
Proof.
  intros Hs Hk0 Hk. pose proof (digitize_lt s x k Hs Hk0 Hk) as H. rewrite edge_nth in H by lia. unfold hi_ok. destruct (edge s k) as [a|].
  - destruct (Z.ltb_spec x a); destruct (Nat.ltb_spec (digitize s x) k); try reflexivity; exfalso; [|apply H in H1; lia]. apply H in H0. lia.
  - symmetry. apply Nat.ltb_lt. now apply H.
Qed.
Lemma hi_le_ok hi x : hi_le hi x = negb (hi_ok hi x).
Proof. destruct hi as [b|]; cbn; [|reflexivity]. destruct (Z.leb_spec b x), (Z.ltb_spec x b); cbn; lia. Qed.
Lemma zmem_In z l : zmem z l = true <-> In z l.
Proof. unfold zmem. rewrite existsb_exists. split; [intros (a & H & E); apply Z.eqb_eq in E; now subst|]. intros H. exists z. now rewrite Z.eqb_refl. Qed.
Lemma select_seq_In {A} (p : nat -> bool) (cats : list A) (z : A) : In z (select (map p (seq 0 (length cats))) cats) <->
  exists k, nth_error cats k = Some z /\ p k = true.
Proof.
  split.
  - intros H. apply In_nth_error in H as (b & Hb). apply select_nth in Hb as (k & H1 & H2 & _). exists k. split; [exact H2|].
    rewrite nth_error_map in H1. assert (k < length cats) by (apply nth_error_Some; congruence).
    rewrite nth_error_seq0 in H1 by assumption. now injection H1.
  - intros (k & Hk & Hp). eapply nth_error_In. apply (proj2 (select_nth _ _ _ _)). exists k. split; [|split; [exact Hk|reflexivity]].
    assert (k < length cats) by (apply nth_error_Some; congruence). rewrite nth_error_map, nth_error_seq0 by assumption. cbn. now rewrite Hp.
Qed.
Lemma position_nth z cats k : NoDup cats -> nth_error cats k = Some z -> position z cats = k.
Proof.
  intros H. revert k; induction H as [|a l Ha Hl IH]; intros k Hk; [destruct k; discriminate|]. cbn [position].
  destruct k as [|k]; [injection Hk as ->; now rewrite Z.eqb_refl|]. cbn [nth_error] in Hk.
  destruct (Z.eqb_spec a z) as [E|E]; [subst; exfalso; apply Ha; eapply nth_error_In; eauto|]. now rewrite (IH k Hk).
Qed.
Lemma in_axis_edges a s x j k : known a x -> nondecreasing s -> j < k -> k <= S (length s) ->
  in_axis a (edge s j, edge s k) x = (j <=? digitize s (encode a x)) && (digitize s (encode a x) <? k).
Proof.
  intros Hkn Hs Hjk Hk. destruct a as [|cats]; cbn [in_axis encode fst snd].
  - now rewrite lo_ok_edge, hi_ok_edge by (try assumption; lia).
  - destruct Hkn as (Hnd & z & -> & Hz). cbn [num]. apply In_nth_error in Hz as (p & Hp). rewrite (position_nth z cats p Hnd Hp).
    unfold bin_cats. cbn [fst snd].
    set (q := fun k0 : nat => Nat.eqb ((if lo_ok (edge s j) (2 * Z.of_nat k0) then 1 else 0) + (if hi_le (edge s k) (2 * Z.of_nat k0) then 1 else 0)) 1).
    assert (Eq : q p = (j <=? digitize s (2 * Z.of_nat p)) && (digitize s (2 * Z.of_nat p) <? k)).
    { unfold q. rewrite hi_le_ok, lo_ok_edge, hi_ok_edge by (try assumption; lia).
      destruct (Nat.leb_spec j (digitize s (2 * Z.of_nat p))), (Nat.ltb_spec (digitize s (2 * Z.of_nat p)) k); cbn; try reflexivity. lia. }
    rewrite <- Eq. destruct (q p) eqn:E.
    + apply zmem_In, select_seq_In. exists p. auto.
    + apply not_true_is_false. intros H. apply zmem_In, select_seq_In in H as (p' & Hp' & Hq).
      assert (p' = p) by (rewrite <- (position_nth z cats p' Hnd Hp'); now apply position_nth). subst. congruence.
Qed.
Lemma shows_in_axis a bins b x : (exists z, x = XNum z) -> (shows a bins b x <-> exists iv, nth_error bins b = Some iv /\ in_axis a iv x = true).
Proof.
  intros (z & ->). unfold shows. destruct a as [|cats]; cbn [in_axis num].
  - unfold in_interval. destruct (nth_error bins b) as [[lo hi]|].
    + unfold in_bin. split.
      * intros [H1 H2]. exists (lo, hi). split; [reflexivity|]. cbn. apply andb_true_iff. destruct lo, hi; cbn; split; try reflexivity; try (now apply Z.leb_le); now apply Z.ltb_lt.
      * intros (iv & [= <-] & H). cbn in H. apply andb_true_iff in H as [H1 H2]. destruct lo, hi; cbn in *; split; auto; try (now apply Z.leb_le); now apply Z.ltb_lt.
    + split; [intros []|intros (iv & H & _); discriminate].
  - split; intros (iv & H1 & H2); exists iv; (split; [exact H1|]); now apply zmem_In.
Qed.

(** * apply_bins *)
Lemma apply_bins_none {V} ax ay i bx by' (mv : list V) x y cur :
  (forall b c d, nth_error bx b = Some c -> nth_error by' b = Some d -> in_axis ax c x && in_axis ay d y = false) ->
  apply_bins ax ay i bx by' mv x y cur = cur.
Proof.
  revert i by' cur; induction bx as [|c bx IH]; intros i [|d by'] cur H; cbn [apply_bins]; try reflexivity.
  rewrite (H 0 c d eq_refl eq_refl). apply IH. intros b c' d' Hc Hd. now apply (H (S b)).
Qed.
Lemma apply_bins_one {V} ax ay i bx by' (mv : list V) x y cur b c d :
  nth_error bx b = Some c -> nth_error by' b = Some d -> in_axis ax c x && in_axis ay d y = true ->
  (forall b' c' d', nth_error bx b' = Some c' -> nth_error by' b' = Some d' -> in_axis ax c' x && in_axis ay d' y = true -> b' = b) ->
  apply_bins ax ay i bx by' mv x y cur = idx mv (i + b).
Proof.
  revert i by' cur b; induction bx as [|c0 bx IH]; intros i [|d0 by'] cur b Hc Hd Ht Hu; try (destruct b; discriminate). cbn [apply_bins].
  destruct b as [|b].
  - injection Hc as ->. injection Hd as ->. rewrite Ht, Nat.add_0_r. apply apply_bins_none.
    intros b' c' d' Hc' Hd'. apply not_true_is_false. intros H. specialize (Hu (S b') c' d' Hc' Hd' H). discriminate.
  - rewrite (IH (S i) by' _ b Hc Hd Ht); [f_equal; lia|]. intros b' c' d' Hc' Hd' H. specialize (Hu (S b') c' d' Hc' Hd' H). lia.
Qed.

(** * sizes *)
Lemma known_num a x : known a x -> exists z, x = XNum z.
Proof. destruct a; cbn; [tauto|]. intros (_ & z & -> & _). eauto. Qed.
Section F.
Variables (sx sy : list Z) (fe fne : list Z) (srs : list rect) (sp mi : Z * Z) (f : fitted2) (ax ay : axis).
Let n := S (length sx). Let m := S (length sy).
Hypothesis HF : fit_of sx sy fe fne srs sp mi f.
Hypothesis HT : tiling m n srs.
Hypothesis Hsx : nondecreasing sx.
Hypothesis Hsy : nondecreasing sy.
Lemma bins_length : length (t_bx f) = length srs /\ length (t_by f) = length srs.
Proof. rewrite (fo_x _ _ _ _ _ _ _ _ HF), (fo_y _ _ _ _ _ _ _ _ HF), !map_length. auto. Qed.
Lemma in_axis_rect b r c d x y : nth_error srs b = Some r -> nth_error (t_bx f) b = Some c -> nth_error (t_by f) b = Some d ->
  known ax x -> known ay y -> (in_axis ax c x && in_axis ay d y = true <-> in_rect r (digitize sy (encode ay y)) (digitize sx (encode ax x))).
Proof.
  intros Hr Hc Hd Hx Hy. rewrite (fo_x _ _ _ _ _ _ _ _ HF), nth_error_map, Hr in Hc. rewrite (fo_y _ _ _ _ _ _ _ _ HF), nth_error_map, Hr in Hd.
  injection Hc as <-. injection Hd as <-. pose proof (proj1 HT r (nth_error_In _ _ Hr)) as (Hk & Hl & Hm & Hn).
  unfold m, n in *. rewrite !in_axis_edges by (try assumption; lia). unfold in_rect.
  rewrite !andb_true_iff, !Nat.leb_le, !Nat.ltb_lt. tauto.
Qed.
Lemma the_bin x y : known ax x -> known ay y -> exists b, b < length srs /\
  (exists c d, nth_error (t_bx f) b = Some c /\ nth_error (t_by f) b = Some d /\ in_axis ax c x && in_axis ay d y = true) /\
  (forall b' c' d', nth_error (t_bx f) b' = Some c' -> nth_error (t_by f) b' = Some d' -> in_axis ax c' x && in_axis ay d' y = true -> b' = b) /\
  (exists r, nth_error srs b = Some r /\ in_rect r (digitize sy (encode ay y)) (digitize sx (encode ax x))).
Proof.
  intros Hx Hy. destruct (proj2 HT (digitize sy (encode ay y)) (digitize sx (encode ax x))) as (b & r & Hb & Hin & Hu).
  { unfold m. pose proof (digitize_le sy (encode ay y)). lia. }
  { unfold n. pose proof (digitize_le sx (encode ax x)). lia. }
  assert (Hlt : b < length srs) by (apply nth_error_Some; congruence). destruct bins_length as [L1 L2].
  exists b. split; [exact Hlt|]. split; [|split; [|eauto]].
  - destruct (nth_error (t_bx f) b) as [c|] eqn:Ec; [|apply nth_error_None in Ec; lia].
    destruct (nth_error (t_by f) b) as [d|] eqn:Ed; [|apply nth_error_None in Ed; lia].
    exists c, d. split; [reflexivity|]. split; [reflexivity|]. now apply (in_axis_rect b r).
  - intros b' c' d' Hc' Hd' H. destruct (nth_error srs b') as [r'|] eqn:Er'; [|apply nth_error_None in Er'; assert (b' < length (t_bx f)) by (apply nth_error_Some; congruence); lia].
    apply (Hu b' r' Er'). now apply (in_axis_rect b' r' c' d').
Qed.
End F.

Lemma isin_no_code o x : no_code o x -> match o with Some l => isin l x | None => false end = false.
Proof.
  destruct o as [l|]; [|reflexivity]. cbn [no_code]. intros H. apply not_true_is_false. intros E. apply H. now apply isin_In.
Qed.
Lemma transform2_clean ax ay cx cy f x y b (ms mm : marg Z) : (exists z, x = XNum z) -> (exists z, y = XNum z) -> no_code cx x -> no_code cy y ->
  b < length (t_bx f) ->
  (exists c d, nth_error (t_bx f) b = Some c /\ nth_error (t_by f) b = Some d /\ in_axis ax c x && in_axis ay d y = true) ->
  (forall b' c' d', nth_error (t_bx f) b' = Some c' -> nth_error (t_by f) b' = Some d' -> in_axis ax c' x && in_axis ay d' y = true -> b' = b) ->
  transform2_indices ax ay cx cy f ms mm x y = Ok (Z.of_nat b).
Proof.
  intros (zx & ->) (zy & ->) Hcx Hcy Hb (c & d & Hc & Hd & H) Hu. unfold transform2_indices, transform2.
  assert (Es : special2 cx cy (XNum zx, XNum zy, Y0) = false) by (unfold special2, s_x, s_y; cbn [fst snd]; now rewrite !isin_no_code).
  assert (Em : missing2 (XNum zx, XNum zy, Y0) = false) by reflexivity.
  unfold clean2. rewrite Es, Em, andb_false_r. cbn [negb andb].
  rewrite (apply_bins_one ax ay 0 _ _ _ _ _ _ b c d Hc Hd H Hu). cbn [Nat.add]. unfold idx.
  rewrite nth_error_map, nth_error_seq0 by lia. reflexivity.
Qed.
