From Coq Require Import List ZArith Bool Arith Lia ZifyBool ZifyNat Permutation.
From Verif Require Import Model.Arr.
Import ListNotations.
Open Scope Z_scope.

Lemma select_nil_l {A} (l : list A) : select [] l = []. Proof. reflexivity. Qed.
Lemma select_nil_r {A} m : select m ([] : list A) = []. Proof. destruct m; reflexivity. Qed.

Lemma select_map_filter {A} (p : A -> bool) l : select (map p l) l = filter p l.
Proof. induction l as [|x r IH]; cbn; [reflexivity|]. now rewrite IH. Qed.

Lemma select_map_map {A B} (p : A -> bool) (f : A -> B) l :
  select (map p l) (map f l) = map f (filter p l).
Proof. induction l as [|x r IH]; cbn; [reflexivity|]. rewrite IH. now destruct (p x). Qed.

Lemma length_map2 {A B C} (f : A -> B -> C) a b :
  length a = length b -> length (map2 f a b) = length a.
Proof. revert b; induction a as [|x r IH]; intros [|y s] H; cbn in *; try lia. now rewrite IH by lia. Qed.

Lemma map2_map {A B C D} (f : B -> C -> D) (g : A -> B) (h : A -> C) l :
  map2 f (map g l) (map h l) = map (fun x => f (g x) (h x)) l.
Proof. induction l as [|x r IH]; cbn; [reflexivity|]. now rewrite IH. Qed.

Lemma mnot_map {A} (p : A -> bool) l : mnot (map p l) = map (fun x => negb (p x)) l.
Proof. unfold mnot. now rewrite map_map. Qed.

Lemma mand_map {A} (p q : A -> bool) l : mand (map p l) (map q l) = map (fun x => p x && q x) l.
Proof. induction l as [|x r IH]; cbn; [reflexivity|]. now rewrite IH. Qed.

Lemma length_mnot m : length (mnot m) = length m.
Proof. unfold mnot. apply map_length. Qed.

Lemma zsum_app a b : zsum (a ++ b) = zsum a + zsum b.
Proof. induction a as [|x r IH]; cbn; lia. Qed.

Lemma zsum_perm a b : Permutation a b -> zsum a = zsum b.
Proof. induction 1; cbn; lia. Qed.

Lemma length_select {A} m (l : list A) : length m = length l -> length (select m l) = count_true m.
Proof.
  revert l; induction m as [|b m IH]; intros [|x r] H; cbn in *; try lia.
  destruct b; cbn; rewrite IH; lia.
Qed.

Lemma select_In {A} m (l : list A) x : In x (select m l) -> In x l.
Proof.
  revert l; induction m as [|b m IH]; intros [|y r] H; cbn in *; try tauto.
  destruct b; cbn in H; [destruct H as [->|H]; [now left|] |]; right; now apply IH.
Qed.

Lemma any_false_iff l : any l = false <-> forall b, In b l -> b = false.
Proof.
  unfold any. induction l as [|b r IH]; cbn; [split; [tauto|reflexivity]|].
  rewrite orb_false_iff, IH. split.
  - intros [Hb Hr] c [->|Hc]; auto.
  - intros H; split; [apply H; now left|intros c Hc; apply H; now right].
Qed.

Lemma any_true_iff l : any l = true <-> In true l.
Proof.
  unfold any. rewrite existsb_exists. split.
  - intros (x & Hx & ->). exact Hx.
  - intros H; now exists true.
Qed.

Lemma count_true_app a b : count_true (a ++ b) = (count_true a + count_true b)%nat.
Proof. induction a as [|[] r IH]; cbn; lia. Qed.

Lemma count_true_le m : (count_true m <= length m)%nat.
Proof. induction m as [|[] m IH]; cbn; lia. Qed.

Lemma count_true_map_filter {A} (p : A -> bool) l : count_true (map p l) = length (filter p l).
Proof. induction l as [|x r IH]; cbn; [reflexivity|]. destruct (p x); cbn; lia. Qed.

Lemma map2_nth_error {A B C} (f : A -> B -> C) a b i :
  nth_error (map2 f a b) i =
  match nth_error a i, nth_error b i with Some x, Some y => Some (f x y) | _, _ => None end.
Proof.
  revert b i; induction a as [|x r IH]; intros [|y s] [|i]; cbn; try reflexivity.
  - destruct (nth_error r i); reflexivity.
  - apply IH.
Qed.

Lemma zsum_filter_split {A} (w : A -> Z) (p : A -> bool) l :
  zsum (map w l) = zsum (map w (filter p l)) + zsum (map w (filter (fun x => negb (p x)) l)).
Proof. induction l as [|x r IH]; cbn; [lia|]. destruct (p x); cbn; lia. Qed.

Lemma filter_filter {A} (p q : A -> bool) l : filter p (filter q l) = filter (fun x => q x && p x) l.
Proof.
  induction l as [|x r IH]; cbn; [reflexivity|].
  destruct (q x); cbn; [destruct (p x); cbn; now rewrite IH|exact IH].
Qed.

(** Sum over [seq 0 n] of the part sums equals the total, when every key is below [n]. *)
Lemma zsum_seq_indicator n k v :
  zsum (map (fun i => if Nat.eqb k i then v else 0) (seq 0 n)) = if (k <? n)%nat then v else 0.
Proof.
  assert (H : forall s, zsum (map (fun i => if Nat.eqb k i then v else 0) (seq s n))
                        = if ((s <=? k) && (k <? s + n))%nat then v else 0).
  { induction n as [|n IH]; intros s; cbn [seq map zsum].
    - destruct (Nat.leb_spec s k); destruct (Nat.ltb_spec k (s+0)); cbn; lia.
    - rewrite IH. destruct (Nat.eqb_spec k s); destruct (Nat.leb_spec (S s) k);
        destruct (Nat.ltb_spec k (S s + n)); destruct (Nat.leb_spec s k);
        destruct (Nat.ltb_spec k (s + S n)); cbn; lia. }
  rewrite H. destruct (Nat.ltb_spec k n), (Nat.leb_spec 0 k), (Nat.ltb_spec k (0+n)); cbn; lia.
Qed.

Lemma zsum_map_plus {A} (f g : A -> Z) l :
  zsum (map (fun x => f x + g x) l) = zsum (map f l) + zsum (map g l).
Proof. induction l as [|x r IH]; cbn; lia. Qed.

Lemma zsum_map_ext {A} (f g : A -> Z) l : (forall x, In x l -> f x = g x) ->
  zsum (map f l) = zsum (map g l).
Proof.
  induction l as [|x r IH]; cbn; intros H; [reflexivity|].
  rewrite (H x) by (now left). rewrite IH; [reflexivity|]. intros y Hy; apply H; now right.
Qed.

Lemma zsum_by_key {A} (key : A -> nat) (w : A -> Z) n l :
  (forall x, In x l -> (key x < n)%nat) ->
  zsum (map (fun i => zsum (map w (filter (fun x => Nat.eqb (key x) i) l))) (seq 0 n)) = zsum (map w l).
Proof.
  induction l as [|x r IH]; cbn; intros H.
  - induction (seq 0 n) as [|i s IH]; cbn; lia.
  - rewrite <- IH by (intros y Hy; apply H; now right).
    rewrite (zsum_map_ext _ (fun i => (if Nat.eqb (key x) i then w x else 0) +
        zsum (map w (filter (fun y => Nat.eqb (key y) i) r)))).
    + rewrite zsum_map_plus, zsum_seq_indicator.
      destruct (Nat.ltb_spec (key x) n) as [_|Hc]; [lia|].
      specialize (H x (or_introl eq_refl)). lia.
    + intros i _. destruct (Nat.eqb (key x) i); cbn; lia.
Qed.

Lemma nth_error_ext {A} (a b : list A) : (forall i, nth_error a i = nth_error b i) -> a = b.
Proof.
  revert b; induction a as [|x a IH]; intros [|y b] H; [reflexivity|specialize (H 0%nat); discriminate
    |specialize (H 0%nat); discriminate|].
  pose proof (H 0%nat) as H0. cbn in H0. injection H0 as ->. f_equal. apply IH. intros i. apply (H (S i)).
Qed.
