(** C75: the compared pairs are the neighbouring rectangles. *)
From Coq Require Import List ZArith Bool Arith Lia Sorting Permutation Relations.
From Verif Require Import Model.Arr Model.Core Model.TwoD Model.TwoDPairs Spec.CoreSpec Spec.TwoDSpec Spec.TwoDPairsSpec.
Import ListNotations.
Open Scope nat_scope.

Lemma mem_In x l : mem x l = true <-> In x l.
Proof. unfold mem. rewrite existsb_exists. split; [intros (y & H & E); apply Nat.eqb_eq in E; now subst|intros H; exists x; split; [exact H|apply Nat.eqb_refl]]. Qed.
Lemma steps_snoc d y x : steps ((d ++ [y]) ++ [x]) = steps (d ++ [y]) ++ [(y, x)].
Proof.
  induction d as [|a d IH]; [reflexivity|]. destruct d as [|b d]; [reflexivity|]. cbn [app steps] in *. rewrite IH. reflexivity.
Qed.
Definition nexts (g : nat -> nat) (k a b : nat) : Prop := exists i, S i < k /\ g i = a /\ g (S i) = b /\ a <> b.
Lemma fromkeys_seq (g : nat -> nat) k : (forall i j l, i <= j <= l -> l < k -> g i = g l -> g j = g i) ->
  (forall x, In x (fromkeys (map g (seq 0 k))) <-> exists i, i < k /\ g i = x) /\
  (0 < k -> exists d, fromkeys (map g (seq 0 k)) = d ++ [g (k - 1)]) /\
  forall a b, In (a, b) (steps (fromkeys (map g (seq 0 k)))) <-> nexts g k a b.
Proof.
  induction k as [|k IH]; intros H.
  - cbn. split; [|split]; [intros x; split; [intros []|intros (i & A & _); lia]|lia|intros a b; split; [intros []|intros (i & A & _); lia]].
  - destruct IH as (I1 & I2 & I3); [intros i j l A B; apply H; [exact A|lia]|].
    rewrite seq_S, map_app. unfold fromkeys in *. rewrite fold_left_app. cbn [map fold_left plus]. set (d := fold_left _ _ []) in *.
    destruct (mem (g k) d) eqn:M.
    + apply mem_In, I1 in M. destruct M as (i & Hi & E). assert (E1 : g (k - 1) = g k) by (rewrite <- E; apply (H i (k - 1) k); [lia|lia|exact E]).
      split; [|split].
      * intros x. rewrite I1. split; [intros (j & A & B); exists j; split; [lia|exact B]|]. intros (j & A & B). destruct (Nat.eq_dec j k) as [->|]; [exists (k - 1); split; [lia|congruence]|exists j; split; [lia|exact B]].
      * intros _. destruct I2 as [d' D]; [lia|]. exists d'. rewrite D. replace (S k - 1) with k by lia. now rewrite E1.
      * intros a b. rewrite I3. unfold nexts. split; [intros (j & A & B); exists j; split; [lia|exact B]|]. intros (j & A & B & C & N). destruct (Nat.eq_dec (S j) k) as [Ej|]; [|exists j; repeat split; auto; lia].
        exfalso. apply N. rewrite <- B, <- C, Ej, <- E1. f_equal. lia.
    + assert (M' : forall i, i < k -> g i <> g k). { intros i Hi E. apply not_true_iff_false in M. apply M, mem_In, I1. eauto. }
      split; [|split].
      * intros x. rewrite in_app_iff, I1. cbn [In]. split.
        -- intros [(i & A & B)|[<-|[]]]; [exists i; split; [lia|exact B]|exists k; split; [lia|reflexivity]].
        -- intros (i & A & B). destruct (Nat.eq_dec i k) as [->|]; [right; left; exact B|left; exists i; split; [lia|exact B]].
      * intros _. exists d. replace (S k - 1) with k by lia. reflexivity.
      * intros a b. destruct k as [|k].
        { cbn in d. unfold d. cbn [app steps In]. split; [intros []|intros (i & A & _); lia]. }
        destruct I2 as [d' D]; [lia|]. replace (S k - 1) with k in D by lia. rewrite D, steps_snoc, in_app_iff, <- D, I3. cbn [In]. split.
        -- intros [(i & A & B)|[E|[]]]; [exists i; split; [lia|exact B]|]. injection E as <- <-. exists k. split; [lia|]. split; [reflexivity|]. split; [reflexivity|]. apply M'. lia.
        -- intros (i & A & B & C & N). destruct (Nat.eq_dec i k) as [->|]; [right; left; congruence|]. left. exists i. repeat split; auto. lia.
Qed.

(** ** sets of paths and pairs *)
Lemma list_eqb_eq a : forall b, list_eqb a b = true <-> a = b.
Proof.
  induction a as [|x a IH]; intros [|y b]; cbn; try (split; [discriminate|discriminate]); [tauto|]. rewrite andb_true_iff, Nat.eqb_eq, IH. split; [intros [-> ->]; reflexivity|intros E; injection E; auto].
Qed.
Lemma paths_In ls : forall ps p, In p (fold_left add_path ls ps) <-> In p ps \/ exists l, In l ls /\ p = fromkeys l.
Proof.
  induction ls as [|l ls IH]; intros ps p; cbn [fold_left]; [split; [auto|intros [H|(l & [] & _)]; exact H]|]. rewrite IH.
  assert (A : In p (add_path ps l) <-> In p ps \/ p = fromkeys l).
  { unfold add_path. destruct (existsb (list_eqb (fromkeys l)) ps) eqn:E.
    - apply existsb_exists in E as (q & Hq & E). apply list_eqb_eq in E. split; [auto|]. intros [H| ->]; [exact H|now rewrite E].
    - rewrite in_app_iff. cbn [In]. intuition. }
  rewrite A. split; [intros [[H|H]|(l' & H & E)]; [auto|right; exists l; split; [left; reflexivity|exact H]|right; exists l'; split; [right; exact H|exact E]]|].
  intros [H|(l' & [<-|H] & E)]; [auto|auto|]. right. eauto.
Qed.
Lemma pair_eqb_eq p q : pair_eqb p q = true <-> p = q.
Proof. destruct p, q. unfold pair_eqb. cbn. rewrite andb_true_iff, !Nat.eqb_eq. split; [intros [-> ->]; reflexivity|intros E; injection E; auto]. Qed.
Lemma add_pair_In s p q : In q (add_pair s p) <-> In q s \/ q = p.
Proof.
  unfold add_pair. destruct (existsb (pair_eqb p) s) eqn:E.
  - apply existsb_exists in E as (r & Hr & E). apply pair_eqb_eq in E. subst r. split; [auto|]. intros [H| ->]; assumption.
  - rewrite in_app_iff. cbn [In]. intuition.
Qed.
Lemma add_pair_NoDup s p : NoDup s -> NoDup (add_pair s p).
Proof.
  intros H. unfold add_pair. destruct (existsb (pair_eqb p) s) eqn:E; [exact H|]. apply (Permutation_NoDup (Permutation_cons_append s p)). constructor; [|exact H].
  intros I. apply not_true_iff_false in E. apply E, existsb_exists. exists p. split; [exact I|now apply pair_eqb_eq].
Qed.
Lemma add_pairs_In l : forall s q, In q (fold_left add_pair l s) <-> In q s \/ In q l.
Proof. induction l as [|p l IH]; intros s q; cbn [fold_left In]; [tauto|]. rewrite IH, add_pair_In. intuition. Qed.
Lemma add_pairs_NoDup l : forall s, NoDup s -> NoDup (fold_left add_pair l s).
Proof. induction l as [|p l IH]; intros s H; cbn [fold_left]; [exact H|]. apply IH. now apply add_pair_NoDup. Qed.
Lemma all_steps_In px : forall s q, In q (fold_left (fun s p => fold_left add_pair (steps p) s) px s) <-> In q s \/ exists p, In p px /\ In q (steps p).
Proof.
  induction px as [|p px IH]; intros s q; cbn [fold_left]; [split; [auto|intros [H|(p & [] & _)]; exact H]|]. rewrite IH, add_pairs_In. split.
  - intros [[H|H]|(r & A & B)]; [auto|right; exists p; split; [left; reflexivity|exact H]|right; exists r; split; [right; exact A|exact B]].
  - intros [H|(r & [<-|A] & B)]; [auto|auto|]. right. eauto.
Qed.
Lemma all_steps_NoDup px : forall s, NoDup s -> NoDup (fold_left (fun s p => fold_left add_pair (steps p) s) px s).
Proof. induction px as [|p px IH]; intros s H; cbn [fold_left]; [exact H|]. apply IH. now apply add_pairs_NoDup. Qed.
Lemma insert_perm p l : Permutation (insert_pair p l) (p :: l).
Proof. induction l as [|q l IH]; cbn; [reflexivity|]. destruct (pair_leb p q); [reflexivity|]. rewrite IH. apply perm_swap. Qed.
Lemma sort_perm l : Permutation (sort_pairs l) l.
Proof. induction l as [|p l IH]; cbn; [reflexivity|]. unfold sort_pairs in IH. rewrite insert_perm, IH. reflexivity. Qed.
Lemma leb_lt p q : p <> q -> (if pair_leb p q then pair_lt p q else pair_lt q p).
Proof.
  destruct p as [a b], q as [c d]. unfold pair_leb, pair_lt. cbn [fst snd]. intros N. destruct (Nat.ltb_spec a c); cbn [orb]; [left; assumption|]. destruct (Nat.eqb_spec a c) as [->|]; cbn [andb]; [|left; lia].
  destruct (Nat.leb_spec b d); right; split; auto. destruct (Nat.eq_dec b d) as [->|]; [contradiction|lia].
Qed.
Lemma pair_lt_trans p q r : pair_lt p q -> pair_lt q r -> pair_lt p r.
Proof. destruct p, q, r. unfold pair_lt. cbn. lia. Qed.
Lemma insert_sorted p l : ~ In p l -> StronglySorted pair_lt l -> StronglySorted pair_lt (insert_pair p l).
Proof.
  induction l as [|q l IH]; intros N H; cbn; [repeat constructor|]. inversion H as [|? ? H1 H2]; subst. pose proof (leb_lt p q) as L. revert L. destruct (pair_leb p q); intros L.
  - constructor; [exact H|]. constructor; [apply L; intros ->; apply N; now left|]. eapply Forall_impl; [|exact H2]. intros r. apply pair_lt_trans. apply L. intros ->. apply N. now left.
  - constructor; [apply IH; [intros I; apply N; now right|exact H1]|]. apply Forall_forall. intros r Hr. apply (Permutation_in _ (insert_perm p l)) in Hr as [<-|Hr]; [apply L; intros ->; apply N; now left|].
    rewrite Forall_forall in H2. now apply H2.
Qed.
Lemma sort_sorted l : NoDup l -> StronglySorted pair_lt (sort_pairs l).
Proof.
  induction 1 as [|p l N H IH]; cbn; [constructor|]. apply insert_sorted; [|exact IH]. intros I. apply N. apply (Permutation_in _ (sort_perm l)). exact I.
Qed.
Lemma get_pairs_In px py q : In q (get_pairs px py) <-> exists p, In p (px ++ py) /\ In q (steps p).
Proof.
  unfold get_pairs. cbv zeta. split.
  - intros H. apply (Permutation_in _ (sort_perm _)) in H. apply all_steps_In in H as [H|(p & A & B)]; [|exists p; split; [apply in_or_app; now right|exact B]].
    apply all_steps_In in H as [[]|(p & A & B)]. exists p. split; [apply in_or_app; now left|exact B].
  - intros (p & A & B). apply (Permutation_in _ (Permutation_sym (sort_perm _))). apply all_steps_In. apply in_app_or in A as [A|A]; [left|right; eauto]. apply all_steps_In. right. eauto.
Qed.
Lemma get_pairs_sorted px py : StronglySorted pair_lt (get_pairs px py).
Proof. unfold get_pairs. cbv zeta. apply sort_sorted. apply all_steps_NoDup, all_steps_NoDup. constructor. Qed.

(** ** the grid *)
Section Grid.
Variables (m n : nat) (srs : list rect) (P : list nat).
Hypothesis HT : tiling m n srs.
Let lab y x := nth (y * n + x) P 0.
Hypothesis HP : forall y x, y < m -> x < n -> exists r, nth_error srs (lab y x) = Some r /\ in_rect r y x.

Lemma lab_eq y x b r : y < m -> x < n -> nth_error srs b = Some r -> in_rect r y x -> lab y x = b.
Proof.
  intros Hy Hx Hb Hi. destruct (proj2 HT y x Hy Hx) as (b0 & r0 & B1 & B2 & B3). destruct (HP y x Hy Hx) as (r1 & R1 & R2).
  rewrite (B3 b r Hb Hi). apply (B3 _ r1 R1 R2).
Qed.
Lemma lab_rect y x r : y < m -> x < n -> nth_error srs (lab y x) = Some r -> in_rect r y x.
Proof. intros Hy Hx H. destruct (HP y x Hy Hx) as (r' & A & B). congruence. Qed.
Lemma row_convex y : y < m -> forall i j l, i <= j <= l -> l < n -> lab y i = lab y l -> lab y j = lab y i.
Proof.
  intros Hy i j l A B E. destruct (HP y i Hy ltac:(lia)) as (r & R1 & R2). assert (R3 : in_rect r y l) by (apply lab_rect; [lia|lia|now rewrite <- E]).
  apply (lab_eq y j _ r); [lia|lia|exact R1|]. unfold in_rect in *. lia.
Qed.
Lemma col_convex x : x < n -> forall i j l, i <= j <= l -> l < m -> lab i x = lab l x -> lab j x = lab i x.
Proof.
  intros Hx i j l A B E. destruct (HP i x ltac:(lia) Hx) as (r & R1 & R2). assert (R3 : in_rect r l x) by (apply lab_rect; [lia|lia|now rewrite <- E]).
  apply (lab_eq j x _ r); [lia|lia|exact R1|]. unfold in_rect in *. lia.
Qed.
Definition pairs := let '(px, py) := get_paths m n P in get_pairs px py.
Lemma pairs_cells a b : In (a, b) pairs <->
  a <> b /\ ((exists y x, y < m /\ S x < n /\ lab y x = a /\ lab y (S x) = b) \/ (exists y x, S y < m /\ x < n /\ lab y x = a /\ lab (S y) x = b)).
Proof.
  unfold pairs, get_paths. rewrite get_pairs_In. split.
  - intros (p & Hp & Hs). apply in_app_or in Hp as [Hp|Hp]; apply paths_In in Hp as [[]|(l & Hl & ->)]; apply in_map_iff in Hl as (y & <- & Hy); apply in_seq in Hy.
    + destruct (fromkeys_seq (lab y) n (row_convex y ltac:(lia))) as (_ & _ & F). apply F in Hs as (x & A & B & C & N). split; [exact N|]. left. exists y, x. repeat split; auto; lia.
    + destruct (fromkeys_seq (fun i => lab i y) m (col_convex y ltac:(lia))) as (_ & _ & F). apply F in Hs as (x & A & B & C & N). split; [exact N|]. right. exists x, y. repeat split; auto; lia.
  - intros (N & [(y & x & Hy & Hx & A & B)|(y & x & Hy & Hx & A & B)]).
    + exists (fromkeys (p_row n P y)). split.
      * apply in_or_app. left. apply paths_In. right. exists (p_row n P y). split; [|reflexivity]. apply in_map_iff. exists y. split; [reflexivity|]. apply in_seq. lia.
      * destruct (fromkeys_seq (lab y) n (row_convex y ltac:(lia))) as (_ & _ & F). apply F. exists x. auto.
    + exists (fromkeys (p_col m n P x)). split.
      * apply in_or_app. right. apply paths_In. right. exists (p_col m n P x). split; [|reflexivity]. apply in_map_iff. exists x. split; [reflexivity|]. apply in_seq. lia.
      * destruct (fromkeys_seq (fun i => lab i x) m (col_convex x ltac:(lia))) as (_ & _ & F). apply F. exists y. auto.
Qed.
Lemma pairs_adj a b r r' : nth_error srs a = Some r -> nth_error srs b = Some r' -> (In (a, b) pairs <-> adj_x r r' \/ adj_y r r').
Proof.
  intros Ha Hb. pose proof (proj1 HT r (nth_error_In _ _ Ha)) as (K1 & K2 & K3 & K4). pose proof (proj1 HT r' (nth_error_In _ _ Hb)) as (K1' & K2' & K3' & K4').
  rewrite pairs_cells. split.
  - intros (N & [(y & x & Hy & Hx & A & B)|(y & x & Hy & Hx & A & B)]).
    + left. assert (R1 : in_rect r y x) by (apply lab_rect; [lia|lia|now rewrite A]). assert (R2 : in_rect r' y (S x)) by (apply lab_rect; [lia|lia|now rewrite B]).
      unfold in_rect in R1, R2. assert (Q1 : S x = r_j r + r_l r).
      { destruct (Nat.eq_dec (S x) (r_j r + r_l r)) as [|Q]; [assumption|]. exfalso. apply N. rewrite <- B. symmetry. apply (lab_eq y (S x) a r); [lia|lia|exact Ha|]. unfold in_rect. lia. }
      assert (Q2 : S x = r_j r').
      { destruct (Nat.eq_dec (S x) (r_j r')) as [|Q]; [assumption|]. exfalso. apply N. rewrite <- A. apply (lab_eq y x b r'); [lia|lia|exact Hb|]. unfold in_rect. lia. }
      split; [lia|]. exists y. lia.
    + right. assert (R1 : in_rect r y x) by (apply lab_rect; [lia|lia|now rewrite A]). assert (R2 : in_rect r' (S y) x) by (apply lab_rect; [lia|lia|now rewrite B]).
      unfold in_rect in R1, R2. assert (Q1 : S y = r_i r + r_k r).
      { destruct (Nat.eq_dec (S y) (r_i r + r_k r)) as [|Q]; [assumption|]. exfalso. apply N. rewrite <- B. symmetry. apply (lab_eq (S y) x a r); [lia|lia|exact Ha|]. unfold in_rect. lia. }
      assert (Q2 : S y = r_i r').
      { destruct (Nat.eq_dec (S y) (r_i r')) as [|Q]; [assumption|]. exfalso. apply N. rewrite <- A. apply (lab_eq y x b r'); [lia|lia|exact Hb|]. unfold in_rect. lia. }
      split; [lia|]. exists x. lia.
  - intros [(E & y & Y1 & Y2)|(E & x & X1 & X2)].
    + split.
      * intros ->. assert (r' = r) by congruence. subst r'. lia.
      * left. exists y, (r_j r' - 1). assert (1 <= r_j r') by lia. replace (S (r_j r' - 1)) with (r_j r') by lia.
        do 2 (split; [lia|]). split; [apply (lab_eq _ _ _ r)|apply (lab_eq _ _ _ r')]; auto; unfold in_rect; lia.
    + split.
      * intros ->. assert (r' = r) by congruence. subst r'. lia.
      * right. exists (r_i r' - 1), x. assert (1 <= r_i r') by lia. replace (S (r_i r' - 1)) with (r_i r') by lia.
        do 2 (split; [lia|]). split; [apply (lab_eq _ _ _ r)|apply (lab_eq _ _ _ r')]; auto; unfold in_rect; lia.
Qed.
Lemma pairs_lt a b : In (a, b) pairs -> a < length srs /\ b < length srs.
Proof.
  intros H. apply pairs_cells in H as (_ & [(y & x & Hy & Hx & <- & <-)|(y & x & Hy & Hx & <- & <-)]).
  - destruct (HP y x Hy ltac:(lia)) as (r & A & _). destruct (HP y (S x) Hy Hx) as (r' & A' & _). split; apply nth_error_Some; congruence.
  - destruct (HP y x ltac:(lia) Hx) as (r & A & _). destruct (HP (S y) x Hy Hx) as (r' & A' & _). split; apply nth_error_Some; congruence.
Qed.
Lemma adj_antisym a b : In (a, b) pairs -> ~ In (b, a) pairs.
Proof.
  intros H H'. destruct (pairs_lt a b H) as [La Lb]. destruct (nth_error srs a) as [r|] eqn:Ea; [|apply nth_error_None in Ea; lia]. destruct (nth_error srs b) as [r'|] eqn:Eb; [|apply nth_error_None in Eb; lia].
  apply (pairs_adj a b r r' Ea Eb) in H. apply (pairs_adj b a r' r Eb Ea) in H'.
  pose proof (proj1 HT r (nth_error_In _ _ Ea)) as (K1 & K2 & K3 & K4). pose proof (proj1 HT r' (nth_error_In _ _ Eb)) as (K1' & K2' & K3' & K4').
  unfold adj_x, adj_y in *. destruct H as [(E & y & Y1 & Y2)|(E & y & Y1 & Y2)], H' as [(E' & z & Z1 & Z2)|(E' & z & Z1 & Z2)]; lia.
Qed.
Lemma linked_cells y x : y < m -> x < n -> linked pairs (lab 0 0) (lab y x).
Proof.
  assert (One : forall a b, In (a, b) pairs \/ a = b -> linked pairs a b) by (intros a b [H| ->]; [now apply rst_step|apply rst_refl]).
  assert (R : forall y x, y < m -> x < n -> linked pairs (lab y 0) (lab y x)).
  { intros y0 x0 Hy. induction x0 as [|x0 IH]; intros Hx; [apply rst_refl|]. eapply rst_trans; [apply IH; lia|]. apply One. destruct (Nat.eq_dec (lab y0 x0) (lab y0 (S x0))) as [E|E]; [now right|left].
    apply pairs_cells. split; [exact E|]. left. exists y0, x0. auto. }
  intros Hy Hx. eapply rst_trans; [|apply R; assumption]. assert (Hn : 0 < n) by lia.
  induction y as [|y IH]; [apply rst_refl|]. eapply rst_trans; [apply IH; lia|]. apply One. destruct (Nat.eq_dec (lab y 0) (lab (S y) 0)) as [E|E]; [now right|left].
  apply pairs_cells. split; [exact E|]. right. exists y, 0. auto.
Qed.
Lemma all_linked a b : a < length srs -> b < length srs -> linked pairs a b.
Proof.
  assert (G : forall a, a < length srs -> linked pairs (lab 0 0) a).
  { intros c Hc. destruct (nth_error srs c) as [r|] eqn:E; [|apply nth_error_None in E; lia]. pose proof (proj1 HT r (nth_error_In _ _ E)) as (K1 & K2 & K3 & K4).
    rewrite <- (lab_eq (r_i r) (r_j r) c r); [apply linked_cells; lia|lia|lia|exact E|unfold in_rect; lia]. }
  intros Ha Hb. eapply rst_trans; [apply rst_sym|]; apply G; assumption.
Qed.
End Grid.
