(** The figure: paths of convex lines, step functions. *)
From Coq Require Import List ZArith Bool Arith Lia Reals Sorting.
From Verif Require Import Model.Arr Model.Core Model.Metrics Model.TwoD Model.TwoDPairs Model.TwoDTable
  Spec.CoreSpec Spec.TwoDSpec Proofs.TwoDP Proofs.TwoDQ Proofs.TwoDR Proofs.TwoDPairsP.
Import ListNotations.
Open Scope nat_scope.

Definition convex (g : nat -> nat) (k : nat) : Prop := forall i j l, i <= j <= l -> l < k -> g i = g l -> g j = g i.
Lemma fromkeys_snoc l x : fromkeys (l ++ [x]) = if mem x (fromkeys l) then fromkeys l else fromkeys l ++ [x].
Proof. unfold fromkeys. rewrite fold_left_app. reflexivity. Qed.
Lemma fromkeys_In l x : In x (fromkeys l) <-> In x l.
Proof.
  induction l as [|y l IH] using rev_ind; [cbn; tauto|]. rewrite fromkeys_snoc, in_app_iff. cbn [In]. destruct (mem y (fromkeys l)) eqn:M.
  - rewrite IH. split; [tauto|]. intros [H|[->|[]]]; [exact H|]. apply IH. now apply mem_In.
  - rewrite in_app_iff, IH. cbn [In]. tauto.
Qed.
Lemma fromkeys_NoDup l : NoDup (fromkeys l).
Proof.
  induction l as [|y l IH] using rev_ind; [constructor|]. rewrite fromkeys_snoc. destruct (mem y (fromkeys l)) eqn:M; [exact IH|].
  apply (Permutation.Permutation_NoDup (Permutation.Permutation_cons_append (fromkeys l) y)). constructor; [|exact IH]. intros H. apply mem_In in H. congruence.
Qed.
Lemma count_snoc l x p : count_occ Nat.eq_dec (l ++ [x]) p = count_occ Nat.eq_dec l p + (if Nat.eq_dec x p then 1 else 0).
Proof. rewrite count_occ_app. cbn. destruct (Nat.eq_dec x p); lia. Qed.
(** a convex line is its path with every entry repeated *)
Lemma runs {A} (v : nat -> A) (g : nat -> nat) k : convex g k ->
  flat_map (fun p => repeat (v p) (count_occ Nat.eq_dec (map g (seq 0 k)) p)) (fromkeys (map g (seq 0 k))) = map (fun i => v (g i)) (seq 0 k).
Proof.
  induction k as [|k IH]; intros H; [reflexivity|]. assert (Hk : convex g k) by (intros i j l Hij Hl; apply H; [exact Hij|lia]).
  specialize (IH Hk). destruct (fromkeys_seq g k Hk) as (I1 & I2 & _).
  rewrite seq_S, !map_app. cbn [map plus]. rewrite fromkeys_snoc. set (l := map g (seq 0 k)) in *.
  assert (Hext : forall d, ~ In (g k) d -> flat_map (fun p => repeat (v p) (count_occ Nat.eq_dec (l ++ [g k]) p)) d = flat_map (fun p => repeat (v p) (count_occ Nat.eq_dec l p)) d).
  { intros d. induction d as [|p d IHd]; intros Hn; [reflexivity|]. cbn [flat_map]. rewrite IHd by (intros X; apply Hn; now right). f_equal. rewrite count_snoc. destruct (Nat.eq_dec (g k) p) as [E|_]; [|now rewrite Nat.add_0_r].
    exfalso. apply Hn. left. now symmetry. }
  destruct (mem (g k) (fromkeys l)) eqn:M.
  - apply mem_In, I1 in M. destruct M as (i & Hi & E). assert (E1 : g (k - 1) = g k) by (rewrite <- E; apply (H i (k - 1) k); [lia|lia|exact E]).
    destruct I2 as [d D]; [lia|]. rewrite E1 in D. pose proof (fromkeys_NoDup l) as ND. rewrite D in *. 
    assert (Hd : ~ In (g k) d). { intros X. apply NoDup_remove_2 in ND. rewrite app_nil_r in ND. now apply ND. }
    rewrite flat_map_app in *. cbn [flat_map] in *. rewrite app_nil_r in *. rewrite (Hext d Hd), count_snoc. destruct (Nat.eq_dec (g k) (g k)); [|congruence].
    rewrite repeat_app, app_assoc, IH. reflexivity.
  - assert (Hd : ~ In (g k) (fromkeys l)) by (intros X; apply mem_In in X; congruence).
    rewrite flat_map_app. cbn [flat_map]. rewrite app_nil_r, (Hext _ Hd), IH, count_snoc. destruct (Nat.eq_dec (g k) (g k)); [|congruence].
    assert (E0 : count_occ Nat.eq_dec l (g k) = 0). { apply count_occ_not_In. rewrite <- fromkeys_In. exact Hd. } rewrite E0. reflexivity.
Qed.

Lemma list_max_le l b : (forall x, In x l -> x <= b) -> list_max' l <= b.
Proof.
  induction l as [|a l IH]; intros H; [cbn; lia|]. pose proof (H a (or_introl eq_refl)) as H1. pose proof (IH (fun x Hx => H x (or_intror Hx))) as H2.
  change (list_max' (a :: l)) with (Nat.max a (list_max' l)). lia.
Qed.
Lemma list_max_ge l a : In a l -> a <= list_max' l.
Proof. induction l as [|b l IH]; [intros []|]. change (list_max' (b :: l)) with (Nat.max b (list_max' l)). intros [->|H]; [lia|]. specialize (IH H). lia. Qed.
Lemma list_max_eq l b : In b l -> (forall x, In x l -> x <= b) -> list_max' l = b.
Proof. intros H1 H2. pose proof (list_max_le l b H2). pose proof (list_max_ge l b H1). lia. Qed.
Lemma count_le (f g : nat -> nat) p q k : (forall i, i < k -> f i = p -> g i = q) ->
  count_occ Nat.eq_dec (map f (seq 0 k)) p <= count_occ Nat.eq_dec (map g (seq 0 k)) q.
Proof.
  induction k as [|k IH]; intros H; [cbn; lia|]. rewrite !seq_S, !map_app. cbn [map plus]. rewrite !count_snoc. specialize (IH (fun i Hi => H i ltac:(lia))).
  pose proof (H k ltac:(lia)). destruct (Nat.eq_dec (f k) p) as [e|]; [|lia]. destruct (Nat.eq_dec (g k) q); [lia|]. exfalso. auto.
Qed.

(** Lines of a matrix lab with M rows and N columns: the entries with a given value have the same positions in every row where they occur. *)
Section Lines.
Variables (M N : nat) (lab : nat -> nat -> nat).
Hypothesis HN : 0 < N.
Hypothesis Hconv : forall y, y < M -> convex (lab y) N.
Hypothesis Hsame : forall y y' x x' i, y < M -> y' < M -> x < N -> x' < N -> i < N -> lab y x = lab y' x' -> lab y i = lab y x -> lab y' i = lab y x.
Let row y := map (lab y) (seq 0 N).
Definition span p := list_max' (map (fun y => count_occ Nat.eq_dec (row y) p) (seq 0 M)).
Lemma span_eq y p : y < M -> In p (row y) -> span p = count_occ Nat.eq_dec (row y) p.
Proof.
  intros Hy Hp. apply in_map_iff in Hp as (x & Ex & Hx). apply in_seq in Hx. unfold span. apply list_max_eq.
  - apply in_map_iff. exists y. split; [reflexivity|apply in_seq; lia].
  - intros c Hc. apply in_map_iff in Hc as (y' & <- & Hy'). apply in_seq in Hy'. unfold row. apply count_le. intros i Hi Ei.
    rewrite <- Ex. rewrite <- Ex in Ei. pose proof (Hsame y' y i x i ltac:(lia) Hy Hi ltac:(lia) Hi Ei eq_refl). congruence.
Qed.
Lemma flat_map_ext_in {A B} (f g : A -> list B) l : (forall a, In a l -> f a = g a) -> flat_map f l = flat_map g l.
Proof. induction l as [|a l IH]; intros H; [reflexivity|]. cbn. rewrite H by now left. f_equal. apply IH. intros b Hb. apply H. now right. Qed.
Lemma step_line_row values y : y < M -> step_line values span (fromkeys (row y)) =
  map (fun x => nth (lab y x) values 0%R) (seq 0 N) ++ [nth (lab y (N - 1)) values 0%R].
Proof.
  intros Hy. unfold step_line.
  rewrite (flat_map_ext_in _ (fun p => repeat (nth p values 0%R) (count_occ Nat.eq_dec (row y) p))).
  - unfold row. rewrite (runs (fun p => nth p values 0%R) (lab y) N (Hconv y Hy)). f_equal. f_equal.
    replace N with (S (N - 1)) at 1 by lia. rewrite seq_S, map_app. cbn [map plus]. now rewrite last_last.
  - intros p Hp. apply (span_eq y p Hy) in Hp; [now rewrite Hp|exact Hy] || (rewrite (span_eq y p Hy); [reflexivity|now apply fromkeys_In]).
Qed.
Lemma lines_of values l : In l (map (step_line values span) (fold_left add_path (map row (seq 0 M)) [])) <->
  exists y, y < M /\ l = map (fun x => nth (lab y x) values 0%R) (seq 0 N) ++ [nth (lab y (N - 1)) values 0%R].
Proof.
  rewrite in_map_iff. split.
  - intros (p & <- & Hp). apply paths_In in Hp as [[]|(r & Hr & ->)]. apply in_map_iff in Hr as (y & <- & Hy). apply in_seq in Hy.
    exists y. split; [lia|]. apply step_line_row. lia.
  - intros (y & Hy & ->). exists (fromkeys (row y)). split; [now apply step_line_row|]. apply paths_In. right. exists (row y). split; [|reflexivity].
    apply in_map. apply in_seq. lia.
Qed.
End Lines.

(** ** the value matrix *)
Lemma set_cell_R_len v D c : length (set_cell_R v D c) = length D.
Proof. unfold set_cell_R. now rewrite map_length, seq_length. Qed.
Lemma set_cell_R_nth v D c k : k < length D -> nth k (set_cell_R v D c) 0%R = if Nat.eqb k c then v else nth k D 0%R.
Proof.
  intros H. unfold set_cell_R. set (F := fun k => if Nat.eqb k c then v else nth k D 0%R). rewrite (nth_indep _ 0%R (F 0)) by now rewrite map_length, seq_length.
  rewrite map_nth, seq_nth by exact H. reflexivity.
Qed.
Lemma set_cell_len v P c : length (set_cell v P c) = length P.
Proof. unfold set_cell. now rewrite map_length, seq_length. Qed.
Lemma set_cell_nth' v P c k : k < length P -> nth k (set_cell v P c) 0 = if Nat.eqb k c then v else nth k P 0.
Proof.
  intros H. unfold set_cell. set (F := fun k => if Nat.eqb k c then v else nth k P 0). rewrite (nth_indep _ 0 (F 0)) by now rewrite map_length, seq_length.
  rewrite map_nth, seq_nth by exact H. reflexivity.
Qed.
Definition tied (v : nat -> R) (c : nat) (P : list nat) (D : list R) : Prop := length P = length D /\ c < length P /\ nth c D 0%R = v (nth c P 0).
Lemma row_tied v i c row : forall P D, length P = length D -> c < length P -> (In c row \/ tied v c P D) ->
  tied v c (set_cells i row P) (fold_left (set_cell_R (v i)) row D).
Proof.
  unfold set_cells. induction row as [|a row IH]; intros P D HL Hc H; cbn [fold_left]; [destruct H as [[]|H]; exact H|].
  apply IH; [now rewrite set_cell_len, set_cell_R_len|now rewrite set_cell_len|].
  destruct (Nat.eq_dec c a) as [->|Hne].
  - right. split; [now rewrite set_cell_len, set_cell_R_len|]. split; [now rewrite set_cell_len|]. rewrite set_cell_R_nth, set_cell_nth' by lia. now rewrite Nat.eqb_refl.
  - destruct H as [[E|H]|(_ & _ & H)]; [congruence|now left|]. right. split; [now rewrite set_cell_len, set_cell_R_len|]. split; [now rewrite set_cell_len|].
    rewrite set_cell_R_nth, set_cell_nth' by lia. apply Nat.eqb_neq in Hne. now rewrite Hne.
Qed.
Lemma set_cells_len i row : forall P, length (set_cells i row P) = length P.
Proof. unfold set_cells. induction row as [|a row IH]; intros P; [reflexivity|]. cbn [fold_left]. now rewrite IH, set_cell_len. Qed.
Lemma fold_R_len v row : forall D, length (fold_left (set_cell_R v) row D) = length D.
Proof. induction row as [|a row IH]; intros D; [reflexivity|]. cbn [fold_left]. now rewrite IH, set_cell_R_len. Qed.
Lemma assign_tied v c sel : forall i P D, length P = length D -> c < length P -> (In c (concat sel) \/ tied v c P D) ->
  tied v c (assign i sel P) (assign_R v i sel D).
Proof.
  induction sel as [|row sel IH]; intros i P D HL Hc H; cbn [assign assign_R]; [destruct H as [[]|H]; exact H|].
  apply IH; [now rewrite set_cells_len, fold_R_len|now rewrite set_cells_len|].
  cbn [concat] in H. rewrite in_app_iff in H. destruct H as [[H|H]|H].
  - right. apply row_tied; auto.
  - now left.
  - right. apply row_tied; auto.
Qed.
Lemma assign_R_len v sel : forall i D, length (assign_R v i sel D) = length D.
Proof. induction sel as [|row sel IH]; intros i D; [reflexivity|]. cbn [assign_R]. now rewrite IH, fold_R_len. Qed.
