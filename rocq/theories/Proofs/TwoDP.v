From Coq Require Import List ZArith QArith Lia Bool Arith.
From Verif Require Import Model.Arr Model.Core Model.TwoD Spec.CoreSpec Spec.TwoDSpec Proofs.ArrP Proofs.CoreP.
Import ListNotations.
Open Scope nat_scope.

(** * lists *)
Lemma nth_error_flat_map {A B} (f : A -> list B) w l i j a : (forall x, length (f x) = w) -> nth_error l i = Some a -> j < w ->
  nth_error (flat_map f l) (i * w + j) = nth_error (f a) j.
Proof.
  intros Hw. revert i; induction l as [|x l IH]; intros [|i] Hi Hj; try discriminate; cbn [flat_map].
  - injection Hi as ->. cbn [Nat.mul Nat.add]. rewrite nth_error_app1 by (rewrite Hw; lia). reflexivity.
  - rewrite nth_error_app2 by (rewrite Hw; lia). rewrite Hw. replace (S i * w + j - w) with (i * w + j) by lia. now apply IH.
Qed.
Lemma nth_error_seq0 n i : i < n -> nth_error (seq 0 n) i = Some i.
Proof. intros H. rewrite (nth_error_nth' _ 0) by (rewrite seq_length; exact H). now rewrite seq_nth. Qed.
Lemma grid_nth {B} (f : nat -> nat -> B) m n i j : i < m -> j < n ->
  nth_error (flat_map (fun i => map (f i) (seq 0 n)) (seq 0 m)) (i * n + j) = Some (f i j).
Proof.
  intros Hi Hj. rewrite (nth_error_flat_map _ n _ i j i).
  - rewrite nth_error_map, nth_error_seq0 by exact Hj. reflexivity.
  - intros x. rewrite map_length, seq_length. reflexivity.
  - now apply nth_error_seq0.
  - exact Hj.
Qed.
Lemma length_grid {B} (f : nat -> nat -> B) m n : length (flat_map (fun i => map (f i) (seq 0 n)) (seq 0 m)) = m * n.
Proof.
  assert (G : forall m s, length (flat_map (fun i => map (f i) (seq 0 n)) (seq s m)) = m * n); [|apply G].
  clear m. induction m as [|m IH]; intros s; [reflexivity|]. cbn [seq flat_map]. rewrite app_length, IH, map_length, seq_length. lia.
Qed.

(** * rectangles *)
Lemma cells_eq n r : cells n r = flat_map (fun a => map (fun b => (r_i r + a) * n + (r_j r + b)) (seq 0 (r_l r))) (seq 0 (r_k r)).
Proof.
  unfold cells. generalize (seq 0 (r_k r)). intros l. induction l as [|a l IH]; [reflexivity|]. cbn [flat_map].
  rewrite map_app, IH, map_map. f_equal. apply map_ext. intros b. lia.
Qed.
Lemma cells_In n r c : In c (cells n r) <-> exists a b, a < r_k r /\ b < r_l r /\ c = (r_i r + a) * n + (r_j r + b).
Proof.
  rewrite cells_eq, in_flat_map. split.
  - intros (a & Ha & Hc). apply in_map_iff in Hc as (b & <- & Hb). apply in_seq in Ha, Hb. exists a, b. repeat split; lia.
  - intros (a & b & Ha & Hb & ->). exists a. split; [apply in_seq; lia|]. apply in_map_iff. exists b. split; [reflexivity|]. apply in_seq; lia.
Qed.
Lemma coord_unique n a b a' b' : b < n -> b' < n -> a * n + b = a' * n + b' -> a = a' /\ b = b'.
Proof.
  intros Hb Hb' E.
  assert (Ea : (a * n + b) / n = a) by (rewrite Nat.div_add_l by lia; rewrite Nat.div_small by lia; lia).
  assert (Ea' : (a' * n + b') / n = a') by (rewrite Nat.div_add_l by lia; rewrite Nat.div_small by lia; lia).
  assert (a = a') by (rewrite <- Ea, <- Ea', E; reflexivity). subst. lia.
Qed.
Lemma cells_In_coord m n r y x : rect_ok m n r -> x < n -> (In (y * n + x) (cells n r) <-> in_rect r y x).
Proof.
  intros (Hk & Hl & Hm & Hn) Hx. rewrite cells_In. unfold in_rect. split.
  - intros (a & b & Ha & Hb & E). apply coord_unique in E as [-> ->]; lia.
  - intros [Hy Hx']. exists (y - r_i r), (x - r_j r). repeat split; try lia. replace (r_i r + (y - r_i r)) with y by lia. lia.
Qed.
Lemma cell_coord n c : 0 < n -> c = (c / n) * n + c mod n.
Proof. intros H. rewrite Nat.mul_comm. apply Nat.div_mod. lia. Qed.
Lemma NoDup_flat_map_grid n r : r_j r + r_l r <= n -> NoDup (cells n r).
Proof.
  intros Hn. rewrite cells_eq. generalize (r_k r). intros k.
  assert (G : forall k s, NoDup (flat_map (fun a => map (fun b => (r_i r + a) * n + (r_j r + b)) (seq 0 (r_l r))) (seq s k))); [|apply G].
  clear k. intros k. induction k as [|k IH]; intros s; [constructor|]. cbn [seq flat_map].
  assert (H1 : NoDup (map (fun b => (r_i r + s) * n + (r_j r + b)) (seq 0 (r_l r)))).
  { apply FinFun.Injective_map_NoDup; [|apply seq_NoDup]. intros b b' E. lia. }
  assert (D : forall c, In c (map (fun b => (r_i r + s) * n + (r_j r + b)) (seq 0 (r_l r))) ->
     ~ In c (flat_map (fun a => map (fun b => (r_i r + a) * n + (r_j r + b)) (seq 0 (r_l r))) (seq (S s) k))).
  { intros c Hc Hc'. apply in_map_iff in Hc as (b & <- & Hb). apply in_flat_map in Hc' as (a & Ha & Hc').
    apply in_map_iff in Hc' as (b' & E & Hb'). apply in_seq in Ha, Hb, Hb'.
    apply coord_unique in E; lia. }
  revert H1 D. generalize (map (fun b => (r_i r + s) * n + (r_j r + b)) (seq 0 (r_l r))). intros l H1 D.
  induction l as [|c l IHl]; [apply IH|]. inversion H1; subst. cbn [app]. constructor.
  - rewrite in_app_iff. intros [H|H]; [contradiction|]. apply (D c); [now left|exact H].
  - apply IHl; [assumption|]. intros c' Hc'. apply D. now right.
Qed.
Lemma cells_NoDup m n r : rect_ok m n r -> NoDup (cells n r).
Proof. intros (_ & _ & _ & H). now apply NoDup_flat_map_grid. Qed.
Lemma cells_lt m n r c : rect_ok m n r -> In c (cells n r) -> c < m * n.
Proof.
  intros (Hk & Hl & Hm & Hn) Hc. apply cells_In in Hc as (a & b & Ha & Hb & ->). nia.
Qed.
Lemma all_rects_In m n r : In r (all_rects m n) <-> rect_ok m n r.
Proof.
  unfold all_rects, rect_ok. rewrite in_flat_map. split.
  - intros (i & Hi & H). apply in_flat_map in H as (j & Hj & H). apply in_flat_map in H as (k & Hk & H).
    apply in_map_iff in H as (l & <- & Hl). apply in_seq in Hi, Hj, Hk, Hl. cbn. lia.
  - destruct r as [i j k l]; cbn. intros (Hk & Hl & Hm & Hn). exists i. split; [apply in_seq; lia|].
    apply in_flat_map. exists j. split; [apply in_seq; lia|]. apply in_flat_map. exists k. split; [apply in_seq; lia|].
    apply in_map_iff. exists l. split; [reflexivity|apply in_seq; lia].
Qed.
Lemma rects_of_In m n ok r : In r (rects_of m n ok) <-> rect_ok m n r /\ ok (cells n r) = true.
Proof. unfold rects_of. rewrite filter_In, all_rects_In. reflexivity. Qed.

Lemma outer_x_In m n r y : rect_ok m n r -> r_i r <= y < r_i r + r_k r -> In (y * n + (r_j r + r_l r - 1)) (outer_x n r).
Proof.
  intros (Hk & Hl & Hm & Hn) Hy. unfold outer_x. apply in_map_iff. exists (y - r_i r). split; [|apply in_seq; lia].
  rewrite cells_eq. erewrite nth_error_nth; [reflexivity|]. rewrite grid_nth by lia. f_equal.
  replace (r_i r + (y - r_i r)) with y by lia. lia.
Qed.
Lemma outer_y_In m n r x : rect_ok m n r -> r_j r <= x < r_j r + r_l r -> In ((r_i r + r_k r - 1) * n + x) (outer_y n r).
Proof.
  intros (Hk & Hl & Hm & Hn) Hx. unfold outer_y. apply in_map_iff. exists (x - r_j r). split; [|apply in_seq; lia].
  rewrite cells_eq. erewrite nth_error_nth; [reflexivity|]. rewrite grid_nth by lia. f_equal.
  replace (r_j r + (x - r_j r)) with x by lia. f_equal. f_equal. lia.
Qed.
(** ... and nothing else *)
Lemma outer_x_cells n r c : In c (outer_x n r) -> 1 <= r_k r -> 1 <= r_l r ->
  exists a, a < r_k r /\ c = (r_i r + a) * n + (r_j r + (r_l r - 1)).
Proof.
  intros H Hk Hl. unfold outer_x in H. apply in_map_iff in H as (a & <- & Ha). apply in_seq in Ha. exists a. split; [lia|].
  rewrite cells_eq. erewrite nth_error_nth; [reflexivity|]. rewrite grid_nth by lia. reflexivity.
Qed.
Lemma outer_y_cells n r c : In c (outer_y n r) -> 1 <= r_k r -> 1 <= r_l r ->
  exists b, b < r_l r /\ c = (r_i r + (r_k r - 1)) * n + (r_j r + b).
Proof.
  intros H Hk Hl. unfold outer_y in H. apply in_map_iff in H as (b & <- & Hb). apply in_seq in Hb. exists b. split; [lia|].
  rewrite cells_eq. erewrite nth_error_nth; [reflexivity|]. rewrite grid_nth by lia. reflexivity.
Qed.

(** * cols *)
Lemma nmem_In a l : nmem a l = true <-> In a l.
Proof.
  unfold nmem. rewrite existsb_exists. split; [intros (x & H & E); apply Nat.eqb_eq in E; now subst|].
  intros H. exists a. split; [exact H|apply Nat.eqb_refl].
Qed.
Lemma cols_In rows c t : In t (cols rows c) <-> exists row, nth_error rows t = Some row /\ In c row.
Proof.
  unfold cols. rewrite in_flat_map. split.
  - intros (u & Hu & H). apply in_map_iff in H as (c' & -> & H). apply filter_In in H as [H E]. apply Nat.eqb_eq in E. subst c'.
    apply in_seq in Hu. destruct (nth_error rows t) as [row|] eqn:Er; [|apply nth_error_None in Er; lia].
    exists row. split; [reflexivity|]. rewrite (nth_error_nth _ _ _ Er) in H. exact H.
  - intros (row & Hr & Hc). exists t. split; [apply in_seq; split; [lia|]; apply nth_error_Some; congruence|].
    apply in_map_iff. exists c. split; [reflexivity|]. apply filter_In. rewrite (nth_error_nth _ _ _ Hr). split; [exact Hc|apply Nat.eqb_refl].
Qed.
Lemma filter_eqb_NoDup c l : NoDup l -> length (filter (Nat.eqb c) l) = if nmem c l then 1 else 0.
Proof.
  induction 1 as [|a l Ha Hl IH]; [reflexivity|]. cbn [filter nmem existsb]. fold (nmem c l).
  destruct (Nat.eqb_spec c a) as [->|Hne]; cbn [orb length]; [|exact IH].
  rewrite IH. destruct (nmem a l) eqn:E; [apply nmem_In in E; contradiction|reflexivity].
Qed.
Lemma NoDup_cols rows c : (forall row, In row rows -> NoDup row) -> NoDup (cols rows c).
Proof.
  intros H. unfold cols.
  assert (G : forall l, NoDup l -> (forall t, In t l -> length (filter (Nat.eqb c) (nth t rows [])) <= 1) ->
     NoDup (flat_map (fun t => map (fun _ : nat => t) (filter (Nat.eqb c) (nth t rows []))) l)).
  { induction l as [|t l IH]; intros Hnd Hle; [constructor|]. inversion Hnd; subst. cbn [flat_map].
    assert (IHl := IH H3 (fun u Hu => Hle u (or_intror Hu))).
    assert (H0 := Hle t (or_introl eq_refl)). destruct (filter (Nat.eqb c) (nth t rows [])) as [|a [|b r]]; cbn in *; [exact IHl| |lia].
    constructor; [|exact IHl]. rewrite in_flat_map. intros (u & Hu & Hm). apply in_map_iff in Hm as (_ & -> & _). contradiction. }
  apply G; [apply seq_NoDup|]. intros t _. destruct (nth_error rows t) as [row|] eqn:E.
  - rewrite (nth_error_nth _ _ _ E), filter_eqb_NoDup by (apply H; eapply nth_error_In; eauto). destruct (nmem c row); lia.
  - rewrite nth_overflow by (now apply nth_error_None). cbn. lia.
Qed.

(** * sums of booleans *)
Lemma xsum2_nonneg sol l : (0 <= xsum2 sol l)%Z.
Proof. unfold xsum2. induction l as [|a l IH]; cbn [map zsum]; [lia|]. unfold xv at 1, b2z. destruct (nth a sol false); lia. Qed.
Lemma xsum2_pos sol l t : In t l -> nth t sol false = true -> (1 <= xsum2 sol l)%Z.
Proof.
  unfold xsum2. induction l as [|a l IH]; intros Ht Hs; [destruct Ht|]. cbn [map zsum]. pose proof (xsum2_nonneg sol l) as H. unfold xsum2 in H.
  destruct Ht as [->|Ht].
  - unfold xv at 1. rewrite Hs. cbn [b2z]. lia.
  - specialize (IH Ht Hs). unfold xv at 1, b2z. destruct (nth a sol false); lia.
Qed.
Lemma xsum2_zero sol l : xsum2 sol l = 0%Z <-> forall t, In t l -> nth t sol false = false.
Proof.
  split.
  - intros H t Ht. destruct (nth t sol false) eqn:E; [|reflexivity]. pose proof (xsum2_pos sol l t Ht E). lia.
  - unfold xsum2. induction l as [|a l IH]; intros H; [reflexivity|]. cbn [map zsum]. rewrite IH by (intros; apply H; now right).
    unfold xv. rewrite (H a (or_introl eq_refl)). reflexivity.
Qed.
Lemma xsum2_le sol l : (xsum2 sol l <= Z.of_nat (length l))%Z.
Proof. unfold xsum2. induction l as [|a l IH]; cbn [map zsum length]; [lia|]. unfold xv at 1, b2z. destruct (nth a sol false); lia. Qed.
Lemma xsum2_one sol l : NoDup l -> (xsum2 sol l = 1%Z <-> exists t, In t l /\ nth t sol false = true /\
  forall u, In u l -> nth u sol false = true -> u = t).
Proof.
  induction 1 as [|a l Ha Hl IH].
  - split; [discriminate|intros (t & [] & _)].
  - unfold xsum2 in *. cbn [map zsum]. unfold xv at 1. destruct (nth a sol false) eqn:E; cbn [b2z].
    + split.
      * intros H. assert (H0 : xsum2 sol l = 0%Z) by (unfold xsum2; lia). rewrite xsum2_zero in H0.
        exists a. split; [now left|]. split; [exact E|]. intros u [->|Hu] Hs; [reflexivity|]. rewrite (H0 u Hu) in Hs. discriminate.
      * intros (t & Ht & Hs & Hu). assert (a = t) by (apply Hu; [now left|exact E]). subst t.
        assert (H0 : xsum2 sol l = 0%Z).
        { apply xsum2_zero. intros u Hu'. destruct (nth u sol false) eqn:Eu; [|reflexivity].
          assert (u = a) by (apply Hu; [now right|exact Eu]). subst. contradiction. }
        unfold xsum2 in H0. lia.
    + rewrite Z.add_0_l, IH. split.
      * intros (t & Ht & Hs & Hu). exists t. split; [now right|]. split; [exact Hs|].
        intros u [->|Hu'] Hs'; [congruence|]. now apply Hu.
      * intros (t & [->|Ht] & Hs & Hu); [congruence|]. exists t. split; [exact Ht|]. split; [exact Hs|]. intros u Hu' Hs'. apply Hu; [now right|exact Hs'].
Qed.

(** * selection *)
Lemma select_nth {A} sol (l : list A) b x : nth_error (select sol l) b = Some x <->
  exists t, nth_error sol t = Some true /\ nth_error l t = Some x /\ count_true (firstn t sol) = b.
Proof.
  revert l b; induction sol as [|s sol IH]; intros [|a l] b.
  - cbn. destruct b; (split; [discriminate|intros ([|t] & H & _); discriminate]).
  - cbn. destruct b; (split; [discriminate|intros ([|t] & H & _); discriminate]).
  - assert (E : select (s :: sol) ([] : list A) = []) by (destruct s; reflexivity). rewrite E. split.
    + destruct b; discriminate.
    + intros ([|t] & _ & H & _); discriminate.
  - cbn [select]. destruct s.
    + destruct b as [|b]; cbn [nth_error].
      * split.
        -- intros [= ->]. exists 0. repeat split.
        -- intros ([|t] & H1 & H2 & H3); [exact H2|]. cbn in H3. discriminate.
      * rewrite IH. split.
        -- intros (t & H1 & H2 & H3). exists (S t). cbn. rewrite H3. auto.
        -- intros ([|t] & H1 & H2 & H3); [cbn in H3; discriminate|]. exists t. cbn in *. auto.
    + rewrite IH. split.
      * intros (t & H1 & H2 & H3). exists (S t). cbn. auto.
      * intros ([|t] & H1 & H2 & H3); [discriminate|]. exists t. cbn in *. auto.
Qed.
Lemma rank_inj sol t u : nth_error sol t = Some true -> nth_error sol u = Some true ->
  count_true (firstn t sol) = count_true (firstn u sol) -> t = u.
Proof.
  revert t u; induction sol as [|s sol IH]; intros [|t] [|u] Ht Hu H; try discriminate; try reflexivity; cbn in *.
  - injection Ht as ->. discriminate.
  - injection Hu as ->. discriminate.
  - f_equal. apply IH; try assumption. destruct s; lia.
Qed.
Lemma select_map {A B} (f : A -> B) sol l : select sol (map f l) = map f (select sol l).
Proof. revert l; induction sol as [|[] sol IH]; intros [|a l]; cbn; try reflexivity; now rewrite IH. Qed.
Lemma select_In' {A} sol (l : list A) x : In x (select sol l) -> In x l.
Proof. revert l; induction sol as [|[] sol IH]; intros [|a l]; cbn; try tauto; [intros [->|H]; auto|auto]. Qed.
Lemma xsum2_length sol : xsum2 sol (seq 0 (length sol)) = Z.of_nat (count_true sol).
Proof.
  unfold xsum2, xv.
  assert (G : forall (l pre : list bool), zsum (map (fun i => b2z (nth i (pre ++ l) false)) (seq (length pre) (length l))) = Z.of_nat (count_true l)).
  { induction l as [|a l IH]; intros pre; [reflexivity|]. cbn [length seq map zsum].
    specialize (IH (pre ++ [a])). rewrite app_length in IH. cbn [length] in IH. rewrite <- app_assoc in IH. cbn [app] in IH.
    replace (length pre + 1) with (S (length pre)) in IH by lia. rewrite IH.
    rewrite app_nth2 by lia. rewrite Nat.sub_diag. cbn [nth count_true]. destruct a; cbn [b2z]; lia. }
  exact (G sol []).
Qed.
