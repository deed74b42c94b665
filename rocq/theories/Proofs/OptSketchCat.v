(** Proofs about OptimalBinningSketch.solve for categorical data. *)
From Coq Require Import List ZArith Bool QArith Lia Permutation Sorted.
From Verif Require Import Model.Arr Model.Core Model.GK Model.BSketch Model.OptSketch Spec.CoreSpec
  Spec.OptSketchSpec Proofs.ArrP Proofs.CoreP Proofs.FitP Proofs.CoreFinal Proofs.CatP Proofs.OptSketchFinal.
Import ListNotations.
Open Scope Z_scope.

Definition data_of (n : list Z) : list csample :=
  map (fun jv => {| cx := Z.of_nat (fst jv); c0 := true; cw := snd jv |}) (combine (seq 0 (length n)) n).
Lemma filter_map_comm {A B} (f : B -> bool) (g : A -> B) l : filter f (map g l) = map g (filter (fun x => f (g x)) l).
Proof. induction l as [|x l IH]; [reflexivity|]. cbn [map filter]. destruct (f (g x)); cbn [map]; now rewrite IH. Qed.
Lemma regroup_counts splits n : regroup splits n = counts 1 (digitize splits) true (data_of n) (S (length splits)).
Proof.
  unfold regroup, counts. apply map_ext. intros i. unfold bin_count, trunc. rewrite Z.quot_1_r.
  unfold data_of. rewrite filter_map_comm, map_map. cbn [cx c0 cw Bool.eqb andb]. reflexivity.
Qed.
Lemma regroup_length splits n : length (regroup splits n) = S (length splits).
Proof. unfold regroup. now rewrite map_length, seq_length. Qed.

Lemma regroup_merge splits sol n : nondecreasing splits -> length sol = S (length splits) -> last sol false = true ->
  merge_loop 0 sol (regroup splits n) = Some (regroup (select (init sol) splits) n).
Proof. intros. rewrite !regroup_counts. now apply merge_counts_digitize. Qed.

Definition positions (a n : nat) : list Z := map (fun i => Z.of_nat i + 1) (seq a n).
Lemma digitize_positions : forall n a j, (a <= j <= a + n)%nat -> digitize (positions a n) (Z.of_nat j) = (j - a)%nat.
Proof.
  induction n as [|n IH]; intros a j L; cbn [positions seq map digitize]; [lia|].
  fold (positions (S a) n). destruct (Z.leb_spec (Z.of_nat a + 1) (Z.of_nat j)) as [Le|Gt].
  - rewrite IH by lia. lia.
  - lia.
Qed.
Lemma positions_sorted n : forall a, nondecreasing (positions a n).
Proof.
  induction n as [|n IH]; intros a; cbn [positions seq map]; [constructor|]. constructor; [apply IH|].
  apply Forall_forall. intros x I. apply in_map_iff in I. destruct I as (i & <- & I). apply in_seq in I. lia.
Qed.

Lemma combine_pick : forall n a i, (a <= i < a + length n)%nat ->
  zsum (map snd (filter (fun jv => Nat.eqb (fst jv) i) (combine (seq a (length n)) n))) = nth (i - a) n 0.
Proof.
  induction n as [|v n IH]; intros a i L; cbn [length] in L; [lia|]. cbn [length seq combine filter fst].
  destruct (Nat.eqb_spec a i) as [->|Ne].
  - rewrite Nat.sub_diag. cbn [map snd zsum nth].
    assert (Z0 : filter (fun jv => Nat.eqb (fst jv) i) (combine (seq (S i) (length n)) n) = []).
    { clear. assert (H : forall b, (i < b)%nat -> filter (fun jv : nat * Z => Nat.eqb (fst jv) i) (combine (seq b (length n)) n) = []).
      { induction n as [|v n IH]; intros b L; [reflexivity|]. cbn [length seq combine filter fst].
        destruct (Nat.eqb_spec b i); [lia|]. apply IH. lia. }
      apply H. lia. }
    rewrite Z0. cbn. lia.
  - rewrite IH by lia. replace (i - a)%nat with (S (i - S a)) by lia. reflexivity.
Qed.

Lemma regroup_identity n : n <> [] -> regroup (positions 0 (length n - 1)) n = n.
Proof.
  intros Ne. assert (L : (1 <= length n)%nat) by (destruct n; [congruence|cbn; lia]).
  unfold regroup. assert (Lp : length (positions 0 (length n - 1)) = (length n - 1)%nat) by (unfold positions; now rewrite map_length, seq_length).
  rewrite Lp. replace (S (length n - 1)) with (length n) by lia.
  apply nth_error_ext. intros k. destruct (Nat.lt_ge_cases k (length n)) as [Lk|Gk].
  - rewrite (map_nth_error _ _ _ (d := k)) by (rewrite nth_error_nth' with (d := 0%nat) by (rewrite seq_length; lia); f_equal; rewrite seq_nth; lia).
    rewrite (nth_error_nth' n 0 Lk). f_equal.
    replace (nth k n 0) with (nth (k - 0) n 0) by now rewrite Nat.sub_0_r. rewrite <- (combine_pick n 0 k) by lia. f_equal. f_equal.
    apply filter_ext_in. intros [j v] I. cbn [fst]. apply in_combine_l in I. apply in_seq in I.
    rewrite digitize_positions by lia. now rewrite Nat.sub_0_r.
  - assert (E : nth_error n k = None) by (apply nth_error_None; lia). rewrite E. apply nth_error_None. rewrite map_length, seq_length. lia.
Qed.

Lemma cat_prebins_spec fuel N E splits nev ev rounds : N <> [] -> length E = length N ->
  cat_prebins fuel 0 (positions 0 (length N - 1)) N E = Some (Ok (splits, nev, ev, rounds)) -> (rounds <= 1)%nat ->
  nondecreasing splits /\ nev = regroup splits N /\ ev = regroup splits E.
Proof.
  intros Ne LE H R. destruct fuel as [|f]; [discriminate|]. cbn [cat_prebins] in H.
  assert (NeE : E <> []) by (intros ->; destruct N; [congruence|discriminate]).
  pose proof (positions_sorted (length N - 1) 0) as So.
  destruct (any _).
  - destruct (positions 0 (length N - 1)) as [|p ps] eqn:EP; [discriminate|].
    set (s' := select _ _) in H. assert (Ns : nondecreasing s') by (now apply select_nondecr).
    destruct f as [|f]; [discriminate|]. cbn [cat_prebins] in H.
    destruct (any _).
    + exfalso. destruct s' as [|q qs]; [discriminate|].
      assert (M : forall f rr sp a b x y z r, cat_prebins f rr sp a b = Some (Ok (x, y, z, r)) -> (rr <= r)%nat).
      { clear. induction f as [|f IH]; intros rr sp a b x y z r H; [discriminate|]. cbn [cat_prebins] in H.
        destruct (any _); [destruct sp; [discriminate|]|].
        - apply IH in H. lia.
        - injection H as <- <- <- <-. lia. }
      apply M in H. lia.
    + injection H as <- <- <- <-. auto.
  - injection H as <- <- <- <-. rewrite regroup_identity by assumption. split; [assumption|]. split; [reflexivity|].
    rewrite <- LE. now rewrite regroup_identity.
Qed.

(** ** groups of categories *)
Lemma NoDup_fst_filter (R : list crow) : NoDup (map fst R) -> forall m, length m = length R ->
  filter (fun r => zmem (fst r) (map fst (select m R))) R = select m R.
Proof.
  induction R as [|r R IH]; intros N m L; [destruct m; reflexivity|]. destruct m as [|b m]; [discriminate|].
  cbn [map] in N. inversion N as [|? ? N1 N2]; subst. cbn [select]. cbn [length] in L.
  assert (Sub : forall x, In x (map fst (select m R)) -> In x (map fst R)).
  { intros x I. apply in_map_iff in I. destruct I as (y & <- & I). apply in_map.
    clear - I. revert m I. induction R as [|a R IH]; intros [|b m] I; cbn [select] in I; try destruct I.
    destruct b; [destruct I as [->|I]; [now left|]|]; right; eauto. }
  assert (Nr : zmem (fst r) (map fst (select m R)) = false).
  { destruct (zmem _ _) eqn:Z0; [|reflexivity]. apply zmem_In in Z0. apply Sub in Z0. contradiction. }
  destruct b.
  - cbn [map filter]. assert (T : zmem (fst r) (fst r :: map fst (select m R)) = true) by (apply zmem_In; now left). rewrite T.
    f_equal. etransitivity; [|apply (IH N2 m); lia]. apply filter_ext_in. intros a Ia.
    unfold zmem. cbn [existsb]. destruct (Z.eqb_spec (fst a) (fst r)) as [Eq|]; [|reflexivity].
    exfalso. apply N1. rewrite <- Eq. now apply in_map.
  - cbn [filter]. rewrite Nr. apply IH; [assumption|lia].
Qed.

Lemma select_combine {A} (val : A -> Z) (p : nat -> bool) : forall (R : list A) a,
  zsum (map val (select (map p (seq a (length R))) R)) =
  zsum (map snd (filter (fun jv => p (fst jv)) (combine (seq a (length R)) (map val R)))).
Proof.
  induction R as [|r R IH]; intros a; [reflexivity|]. cbn [length seq map select combine filter fst].
  destruct (p a); cbn [map zsum snd]; rewrite IH; reflexivity.
Qed.
Lemma select_map {A B} (g : A -> B) : forall m l, select m (map g l) = map g (select m l).
Proof. induction m as [|b m IH]; intros [|x l]; cbn [select map]; try reflexivity. destruct b; cbn [map]; now rewrite IH. Qed.

Lemma insert_r_perm x l : Permutation (x :: l) (insert_r x l).
Proof.
  induction l as [|y r IH]; cbn [insert_r]; [reflexivity|]. destruct (rate_le x y); [reflexivity|].
  rewrite perm_swap. now constructor.
Qed.
Lemma sort_r_perm l : Permutation l (sort_r l).
Proof. induction l as [|x l IH]; cbn [sort_r fold_right]; [constructor|]. rewrite <- insert_r_perm. now constructor. Qed.

Definition split_ok (t : list crow) (cb : cbins) (others : list crow) : Prop :=
  cb_others cb = map fst others /\ Permutation t (cb_rows cb ++ others) /\
  (cb_others cb <> [] -> cb_ne_others cb = zsum (map r_ne others) /\ cb_e_others cb = zsum (map r_e others)).
Lemma filter_partition {A} (f : A -> bool) l : Permutation l (filter (fun x => negb (f x)) l ++ filter f l).
Proof.
  induction l as [|x l IH]; [constructor|]. cbn [filter]. destruct (f x); cbn [negb app].
  - apply Permutation_cons_app. exact IH.
  - now constructor.
Qed.
Lemma cat_bins_split cutoff n t : NoDup (map fst t) ->
  split_ok t (cat_bins cutoff n t) (match cutoff with None => [] | Some c => filter (rare c n) t end).
Proof.
  intros N. unfold split_ok, cat_bins. destruct cutoff as [c|]; cbn [cb_others cb_rows cb_ne_others cb_e_others].
  - split; [reflexivity|]. split; [|auto].
    rewrite <- sort_r_perm. rewrite (filter_ext_in _ (fun r => negb (rare c n r))).
    + apply filter_partition.
    + intros r I. f_equal. destruct (rare c n r) eqn:Rr.
      * apply zmem_In. apply in_map. apply filter_In. auto.
      * destruct (zmem _ _) eqn:Z0; [|reflexivity]. apply zmem_In in Z0. apply in_map_iff in Z0. destruct Z0 as (r' & Ef & I').
        apply filter_In in I'. destruct I' as [I' R'].
        assert (r = r'); [|congruence].
        clear - N I I' Ef. induction t as [|a t IH]; [destruct I|]. cbn [map] in N. inversion N as [|? ? N1 N2]; subst.
        destruct I as [->|I], I' as [->|I']; auto.
        -- exfalso. apply N1. rewrite <- Ef. now apply in_map.
        -- exfalso. apply N1. rewrite Ef. now apply in_map.
  - split; [reflexivity|]. split; [|congruence]. rewrite app_nil_r. apply sort_r_perm.
Qed.

Lemma zsum_perm a b : Permutation a b -> zsum a = zsum b.
Proof. induction 1; cbn [zsum]; lia. Qed.
Lemma filter_perm {A} (f : A -> bool) a b : Permutation a b -> Permutation (filter f a) (filter f b).
Proof.
  induction 1 as [|x a b P IH|x y a|a b c P IH P' IH']; cbn [filter].
  - constructor.
  - destruct (f x); [now constructor|assumption].
  - destruct (f x), (f y); try reflexivity. apply perm_swap.
  - now rewrite IH.
Qed.

Lemma filter_none {A} (f : A -> bool) l : (forall x, In x l -> f x = false) -> filter f l = [].
Proof. intros H. induction l as [|x l IH]; [reflexivity|]. cbn [filter]. rewrite (H x (or_introl eq_refl)). apply IH. intros y I. apply H. now right. Qed.
Lemma filter_every {A} (f : A -> bool) l : (forall x, In x l -> f x = true) -> filter f l = l.
Proof. intros H. induction l as [|x l IH]; [reflexivity|]. cbn [filter]. rewrite (H x (or_introl eq_refl)). f_equal. apply IH. intros y I. apply H. now right. Qed.

Lemma NoDup_app_disj (a b : list Z) : NoDup (a ++ b) -> NoDup a /\ NoDup b /\ forall x, In x a -> ~ In x b.
Proof.
  induction a as [|x a IH]; cbn [app]; intros N; [split; [constructor|split; [assumption|intros x []]]|].
  inversion N as [|? ? N1 N2]; subst. destruct (IH N2) as (A & B & C). split; [|split; [assumption|]].
  - constructor; [|assumption]. intros I. apply N1. apply in_or_app. now left.
  - intros y [->|I]; [intros I; apply N1; apply in_or_app; now right|now apply C].
Qed.

(** counts of a group of kept categories, and of the others *)
Lemma group_counts (val : crow -> Z) t R O m : NoDup (map fst t) -> Permutation t (R ++ O) -> length m = length R ->
  zsum (map val (filter (fun r => zmem (fst r) (select m (map fst R))) t)) = zsum (map val (select m R)).
Proof.
  intros N P L. rewrite (zsum_perm _ (map val (filter (fun r => zmem (fst r) (select m (map fst R))) (R ++ O))))
    by (apply Permutation_map, filter_perm, P).
  assert (N' : NoDup (map fst R ++ map fst O)).
  { rewrite <- map_app. eapply Permutation_NoDup; [|exact N]. now apply Permutation_map. }
  apply NoDup_app_disj in N'. destruct N' as (NR & NO & D).
  rewrite filter_app, select_map. rewrite NoDup_fst_filter by assumption.
  rewrite (filter_none _ O); [now rewrite app_nil_r|].
  intros r I. destruct (zmem _ _) eqn:Z0; [|reflexivity]. apply zmem_In in Z0. exfalso.
  apply (D (fst r)); [|now apply in_map]. clear - Z0. apply in_map_iff in Z0. destruct Z0 as (y & <- & I). apply in_map.
  revert m I. induction R as [|a R IH]; intros [|b m] I; cbn [select] in I; try destruct I.
  destruct b; [destruct I as [->|I]; [now left|]|]; right; eauto.
Qed.
Lemma others_counts (val : crow -> Z) t R O : NoDup (map fst t) -> Permutation t (R ++ O) ->
  zsum (map val (filter (fun r => zmem (fst r) (map fst O)) t)) = zsum (map val O).
Proof.
  intros N P. rewrite (zsum_perm _ (map val (filter (fun r => zmem (fst r) (map fst O)) (R ++ O))))
    by (apply Permutation_map, filter_perm, P).
  assert (N' : NoDup (map fst R ++ map fst O)).
  { rewrite <- map_app. eapply Permutation_NoDup; [|exact N]. now apply Permutation_map. }
  apply NoDup_app_disj in N'. destruct N' as (NR & NO & D).
  rewrite filter_app. rewrite filter_none, filter_every; [reflexivity| |].
  - intros r I. apply zmem_In. now apply in_map.
  - intros r I. destruct (zmem _ _) eqn:Z0; [|reflexivity]. apply zmem_In in Z0. exfalso. apply (D (fst r)); [now apply in_map|assumption].
Qed.

(** every position goes to one group, so the groups partition the categories *)
Lemma select_partition {A} (d : nat -> nat) (n : nat) : forall (l : list A) a, (forall j, (a <= j < a + length l)%nat -> (d j < n)%nat) ->
  Permutation l (concat (map (fun i => select (map (fun j => Nat.eqb (d j) i) (seq a (length l))) l) (seq 0 n))).
Proof.
  induction l as [|x l IH]; intros a H.
  - cbn [length seq map select]. clear. induction (seq 0 n) as [|i s IHs]; cbn; [constructor|exact IHs].
  - cbn [length] in *. specialize (IH (S a) ltac:(intros j Lj; apply H; lia)).
    cbn [seq map select]. pose proof (H a ltac:(lia)) as Ha.
    set (G := fun i => select (map (fun j => Nat.eqb (d j) i) (seq (S a) (length l))) l) in *.
    assert (K : forall s, NoDup s -> In (d a) s ->
      Permutation (x :: concat (map G s)) (concat (map (fun i => if Nat.eqb (d a) i then x :: G i else G i) s))).
    { induction s as [|i s IHs]; intros Nd I; [destruct I|]. inversion Nd as [|? ? N1 N2]; subst. cbn [map concat].
      destruct (Nat.eqb_spec (d a) i) as [Ei|Ne].
      - cbn [app]. apply perm_skip. apply Permutation_app_head.
        assert (Eq : map (fun i0 => if Nat.eqb (d a) i0 then x :: G i0 else G i0) s = map G s); [|now rewrite Eq].
        apply map_ext_in. intros i' I'. destruct (Nat.eqb_spec (d a) i'); [|reflexivity]. subst. contradiction.
      - destruct I as [->|I]; [congruence|]. rewrite <- (IHs N2 I). apply Permutation_cons_app. reflexivity. }
    etransitivity; [apply perm_skip; exact IH|]. apply (K (seq 0 n)); [apply seq_NoDup|apply in_seq; lia].
Qed.
