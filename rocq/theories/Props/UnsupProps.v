(** C93: the prebinning methods "uniform" and "quantile". *)
From Coq Require Import List ZArith QArith Qabs Qround Lia Lqa Bool Arith Permutation Sorting.
From Verif Require Import Model.Arr Model.Core Model.Mdlp Model.Outlier Model.Unsup Spec.CoreSpec Spec.OutlierSpec Spec.UnsupSpec
  Proofs.ArrP Proofs.CoreP Proofs.OutlierP Proofs.OutlierR Proofs.OutlierS Proofs.UnsupP.
Import ListNotations.
Open Scope Q_scope.

(** When the fit fails, and how. *)
Theorem C93_valid tol m n mbs ws xs : (exists s, unsup_fit tol m n mbs ws xs = Ok s) <-> (2 <= n)%Z /\ xs <> [].
Proof.
  unfold unsup_fit. destruct (Z.ltb_spec n 2); [split; [intros (s & E); discriminate|intros [? _]; lia]|]. destruct xs as [|a r]; [split; [intros (s & E); discriminate|intros [_ G]; congruence]|].
  split; [intros _; split; [lia|discriminate]|intros _]. destruct (Z.eqb _ _); [eauto|]. destruct m; eauto.
Qed.
Print Assumptions C93_valid.
Theorem C93_error tol m n mbs ws xs e : unsup_fit tol m n mbs ws xs = Err e -> e = ValueError /\ ((n < 2)%Z \/ xs = []).
Proof.
  unfold unsup_fit. destruct (Z.ltb_spec n 2); [intros E; split; [congruence|now left]|]. destruct xs as [|a r]; [intros E; split; [congruence|now right]|].
  destruct (Z.eqb _ _); [discriminate|]. destruct m; discriminate.
Qed.
Print Assumptions C93_error.

Lemma fit_inv tol m n mbs ws xs s : unsup_fit tol m n mbs ws xs = Ok s -> (2 <= n)%Z /\ xs <> [] /\
  ((col_min xs = col_max xs /\ s = []) \/ ((col_min xs < col_max xs)%Z /\
    s = inner (match m with Uniform => uniform_edges (Z.to_nat n) (col_min xs) (col_max xs) | Quantile => drop_narrow tol (quantile_edges (Z.to_nat n) xs) end))).
Proof.
  intros E. assert (V : exists s, unsup_fit tol m n mbs ws xs = Ok s) by eauto. apply C93_valid in V as [V1 V2]. split; [exact V1|]. split; [exact V2|].
  unfold unsup_fit in E. destruct (Z.ltb_spec n 2); [lia|]. destruct xs as [|a r]; [congruence|]. set (l := a :: r) in *.
  assert (L : (col_min l <= col_max l)%Z) by (apply (col_min_least l V2), (col_max_greatest l V2)).
  destruct (Z.eqb_spec (col_min l) (col_max l)) as [G|G]; [left; split; [exact G|congruence]|right]. split; [lia|]. destruct m; congruence.
Qed.

(** The split points increase strictly, there are fewer than n_bins of them, and they lie strictly between two records: the first and
    the last pre-bin are never empty. *)
Theorem C93_splits tol m n mbs ws xs s : 0 <= tol -> unsup_fit tol m n mbs ws xs = Ok s ->
  StronglySorted Qlt s /\ (Z.of_nat (length s) < n)%Z /\
  exists lo hi, In lo xs /\ In hi xs /\ forall v, In v s -> inject_Z lo < v /\ v < inject_Z hi.
Proof.
  intros Ht E. apply fit_inv in E as (Hn & Hne & [[E ->]|[L ->]]).
  - split; [constructor|]. split; [cbn; lia|]. destruct xs as [|a r]; [congruence|]. exists a, a. split; [now left|]. split; [now left|]. intros v [].
  - set (k := Z.to_nat n) in *. assert (Hk : (0 < k)%nat) by (unfold k; lia).
    set (l := match m with Uniform => _ | Quantile => _ end).
    assert (G : StronglySorted Qlt l /\ (length l <= S k)%nat /\ forall v, In v l -> inject_Z (col_min xs) <= v /\ v <= inject_Z (col_max xs)).
    { destruct m; unfold l.
      - split; [now apply uniform_sorted|]. split; [unfold uniform_edges; rewrite map_length, linspace_length; lia|]. intros v Hv. now apply (uniform_range k).
      - destruct (drop_narrow_spec tol (quantile_edges k xs) Ht (quantile_edges_sorted k xs Hk Hne)) as (A & B & C). split; [exact A|]. split; [unfold quantile_edges in C at 2; rewrite map_length, linspace_length in C; exact C|].
        intros v Hv. apply B, In_nth_error in Hv as (i & Hi). assert (Hl : (i <= k)%nat). { assert (G : nth_error (quantile_edges k xs) i <> None) by congruence. apply nth_error_Some in G. unfold quantile_edges in G. rewrite map_length, linspace_length in G. lia. }
        rewrite quantile_edges_nth in Hi by exact Hl. injection Hi as <-. destruct (ratio_bounds i k Hk Hl). now apply quantile_range. }
    destruct G as (G1 & G2 & G3). split; [now apply inner_sorted|]. split; [unfold inner; rewrite inner_length; lia|].
    exists (col_min xs), (col_max xs). split; [now apply col_min_least|]. split; [now apply col_max_greatest|]. intros v Hv.
    assert (Hi : inner l <> []) by (intros E; rewrite E in Hv; destruct Hv). destruct (inner_spec l G1 Hi) as (a & z & A & Z & F). destruct (F v Hv) as (_ & F1 & F2).
    split; [eapply Qle_lt_trans; [apply (G3 a A)|exact F1]|eapply Qlt_le_trans; [exact F2|apply (G3 z Z)]].
Qed.
Print Assumptions C93_splits.

Lemma bin_of_nth splits x : StronglySorted Qlt splits -> forall i v, nth_error splits i = Some v -> Qle_bool v (inject_Z x) = Nat.ltb i (bin_of splits x).
Proof.
  unfold bin_of. induction 1 as [|a r Hr IH Hf]; intros i v Hv; [destruct i; discriminate|]. cbn [filter]. destruct (Qle_bool a (inject_Z x)) eqn:E.
  - cbn [length]. destruct i as [|i]; cbn [nth_error] in Hv; [injection Hv as <-; exact E|]. rewrite (IH i v Hv). reflexivity.
  - assert (G : forall u, In u (a :: r) -> Qle_bool u (inject_Z x) = false).
    { intros u [<-|Hu]; [exact E|]. rewrite Forall_forall in Hf. specialize (Hf u Hu). apply not_true_is_false. intros C. apply Qle_bool_iff in C. assert (a <= inject_Z x) by lra. apply Qle_bool_iff in H. congruence. }
    assert (Hl : filter (fun s => Qle_bool s (inject_Z x)) r = []). { destruct (filter _ r) as [|u t] eqn:F; [reflexivity|]. assert (Hu : In u (filter (fun s => Qle_bool s (inject_Z x)) r)) by (rewrite F; now left). apply filter_In in Hu as [Hu C]. rewrite (G u) in C by now right. discriminate. }
    rewrite Hl. cbn [length]. rewrite (G v) by (eapply nth_error_In; exact Hv). symmetry. apply Nat.ltb_ge. lia.
Qed.
Lemma bin_of_le splits x : (bin_of splits x <= length splits)%nat.
Proof. unfold bin_of. induction splits as [|a r IH]; [cbn; lia|]. cbn [filter length]. destruct (Qle_bool a (inject_Z x)); cbn [length]; lia. Qed.

(** "uniform": on data that are not constant, the n_bins - 1 equidistant points between the minimum and the maximum; a record in the
    j-th pre-bin lies in the j-th of the n_bins intervals of equal width. *)
Theorem C93_uniform tol n mbs ws xs s lo hi : unsup_fit tol Uniform n mbs ws xs = Ok s -> least lo xs -> greatest hi xs -> (lo < hi)%Z ->
  let k := Z.to_nat n in let w := (inject_Z hi - inject_Z lo) / zq k in
  length s = (k - 1)%nat /\
  (forall i v, nth_error s i = Some v -> v == inject_Z lo + zq (S i) * w) /\
  (forall x, In x xs -> (bin_of s x < k)%nat /\ inject_Z lo + zq (bin_of s x) * w <= inject_Z x <= inject_Z lo + zq (S (bin_of s x)) * w).
Proof.
  intros E Hlo Hhi L k w. apply fit_inv in E as (Hn & Hne & H). rewrite (least_eq _ _ _ (col_min_least xs Hne) Hlo), (greatest_eq _ _ _ (col_max_greatest xs Hne) Hhi) in H. destruct H as [[E _]|[_ ->]]; [lia|]. fold k.
  assert (Hk : (2 <= k)%nat) by (unfold k; lia). assert (Hp : 0 < zq k) by (change 0 with (zq 0); apply zq_lt; lia).
  assert (Ll : length (uniform_edges k lo hi) = S k) by (unfold uniform_edges; now rewrite map_length, linspace_length).
  assert (Len : length (inner (uniform_edges k lo hi)) = (k - 1)%nat) by (unfold inner; rewrite inner_length, Ll; lia).
  assert (Nth : forall i v, nth_error (inner (uniform_edges k lo hi)) i = Some v -> v == inject_Z lo + zq (S i) * w).
  { intros i v Hv. assert (Hi : (i < k - 1)%nat) by (rewrite <- Len; apply nth_error_Some; congruence). unfold inner in Hv. rewrite inner_nth in Hv by (rewrite Ll; lia). apply uniform_nth in Hv as [_ ->]. unfold w. field. lra. }
  split; [exact Len|]. split; [exact Nth|]. intros x Hx. set (s := inner (uniform_edges k lo hi)) in *.
  assert (Ss : StronglySorted Qlt s) by (apply inner_sorted, uniform_sorted; [lia|exact L]). pose proof (bin_of_le s x) as B. rewrite Len in B. split; [lia|].
  assert (Ew : zq k * w == inject_Z hi - inject_Z lo) by (unfold w; field; lra). destruct Hlo as [_ Hlo]. destruct Hhi as [_ Hhi]. specialize (Hlo x Hx). specialize (Hhi x Hx). rewrite Zle_Qle in Hlo, Hhi.
  pose proof (bin_of_nth s x Ss) as N. set (b := bin_of s x) in *. split.
  - destruct b as [|b']; [change (zq 0) with 0; lra|]. destruct (nth_error s b') as [v|] eqn:Ev; [|apply nth_error_None in Ev; lia].
    specialize (N b' v Ev). specialize (Nth b' v Ev). assert (Lt : Nat.ltb b' (S b') = true) by (apply Nat.ltb_lt; lia). rewrite Lt in N. apply Qle_bool_iff in N. lra.
  - destruct (nth_error s b) as [v|] eqn:Ev.
    + specialize (N b v Ev). specialize (Nth b v Ev). rewrite Nat.ltb_irrefl in N. assert (~ v <= inject_Z x) by (intros G; apply Qle_bool_iff in G; congruence). lra.
    + apply nth_error_None in Ev. assert (Eb : S b = k) by lia. rewrite Eb. lra.
Qed.
Print Assumptions C93_uniform.

(** ** "quantile" on distinct values *)
Lemma zq_mul a b : zq (a * b) == zq a * zq b.
Proof. unfold zq. rewrite Nat2Z.inj_mul, inject_Z_mult. reflexivity. Qed.
Lemma zq_add a b : zq (a + b) == zq a + zq b.
Proof. unfold zq. rewrite Nat2Z.inj_add, inject_Z_plus. reflexivity. Qed.
Lemma quantile_kept tol k xs : (0 < k)%nat -> NoDup xs -> xs <> [] -> tol * zq k < zq (length xs - 1) -> drop_narrow tol (quantile_edges k xs) = quantile_edges k xs.
Proof.
  intros Hk Hd Hne Ht. assert (Hp : 0 < zq k) by (change 0 with (zq 0); apply zq_lt; lia). assert (Ln : (0 < length xs)%nat) by (destruct xs; [congruence|cbn; lia]).
  assert (G : forall i a b, nth_error (quantile_edges k xs) i = Some a -> nth_error (quantile_edges k xs) (S i) = Some b -> tol < b - a).
  { intros i a b Ha Hb. assert (Hi : (S i <= k)%nat). { assert (G : nth_error (quantile_edges k xs) (S i) <> None) by congruence. apply nth_error_Some in G. unfold quantile_edges in G. rewrite map_length, linspace_length in G. lia. }
    rewrite quantile_edges_nth in Ha by lia. rewrite quantile_edges_nth in Hb by lia. injection Ha as <-. injection Hb as <-. rewrite !quantile_interp.
    assert (Hds : NoDup (np_sort xs)) by (eapply Permutation_NoDup; [apply Permutation_sym, np_sort_perm|exact Hd]). assert (Hns : np_sort xs <> []) by (intros E; apply (f_equal (@length Z)) in E; rewrite np_sort_length in E; cbn in E; lia).
    assert (EM : inject_Z (Z.of_nat (length xs) - 1) == zq (length xs - 1)) by (rewrite inj_minus, zq_pred by exact Ln; reflexivity). set (M := inject_Z (Z.of_nat (length xs) - 1)) in *. pose proof (zq_pos (length xs - 1)) as MP. rewrite <- EM in MP, Ht.
    destruct (ratio_bounds i k Hk ltac:(lia)) as [R1 R2]. destruct (ratio_bounds (S i) k Hk Hi) as [R3 R4]. pose proof (ratio_lt i (S i) k Hk ltac:(lia)) as R5.
    pose proof (interp_slope (np_sort xs) (zq i / zq k * M) (zq (S i) / zq k * M) (np_sort_sorted xs) Hds Hns ltac:(nra) ltac:(nra) ltac:(rewrite np_sort_length; rewrite <- zq_pred by exact Ln; rewrite <- EM; nra)) as SL.
    assert (ES : zq (S i) / zq k * M - zq i / zq k * M == M / zq k) by (rewrite zq_S; field; lra). rewrite ES in SL.
    assert (tol < M / zq k) by (apply Qlt_shift_div_l; [exact Hp|exact Ht]). lra. }
  revert G. destruct (quantile_edges k xs) as [|e r]; intros G; [reflexivity|]. cbn [drop_narrow]. f_equal. apply wide_from_all. exact G.
Qed.
Lemma zmul_bounds (B i k m : nat) : zq B - 1 < zq i / zq k * zq m -> zq i / zq k * zq m <= zq B -> (0 < k)%nat -> (i * m <= k * B)%nat /\ (k * B < i * m + k)%nat.
Proof.
  intros H1 H2 Hk. assert (Hp : 0 < zq k) by (change 0 with (zq 0); apply zq_lt; lia). assert (E : zq k * (zq i / zq k * zq m) == zq i * zq m) by (field; lra).
  split; [apply zq_le; rewrite !zq_mul; nra|apply zq_lt; rewrite zq_add, !zq_mul; nra].
Qed.

(** "quantile" on distinct values (and not spaced closer than the tolerance): n_bins - 1 split points, the (i+1)-th with exactly
    ceil((i+1)(m-1)/n_bins) records below it, so the sizes of two pre-bins differ by at most two. *)
Theorem C93_quantile_counts tol n mbs ws xs s : unsup_fit tol Quantile n mbs ws xs = Ok s -> NoDup xs -> 0 <= tol ->
  let k := Z.to_nat n in let m := length xs in tol * zq k < zq (m - 1) ->
  length s = (k - 1)%nat /\
  (forall i v, nth_error s i = Some v -> (S i * (m - 1) <= k * records_below v xs < S i * (m - 1) + k)%nat) /\
  (forall j, (j < k)%nat -> (m - 1 < k * bin_count s j xs + k)%nat /\ (k * bin_count s j xs <= m - 1 + k)%nat).
Proof.
  intros E Hd Ht k m Hg. apply fit_inv in E as (Hn & Hne & H). assert (Hk : (2 <= k)%nat) by (unfold k; lia). assert (Hp : 0 < zq k) by (change 0 with (zq 0); apply zq_lt; lia).
  assert (Hm : (2 <= m)%nat). { assert (zq 0 < zq (m - 1)) by (change (zq 0) with 0; nra). apply zq_lt in H0. lia. }
  destruct H as [[E _]|[L ->]].
  { exfalso. destruct (col_min_least xs Hne) as [_ A]. destruct (col_max_greatest xs Hne) as [_ B]. unfold m in Hm. destruct xs as [|a [|b r]]; cbn in Hm; try lia.
    assert (a = b) by (pose proof (A a (or_introl eq_refl)); pose proof (B a (or_introl eq_refl)); pose proof (A b (or_intror (or_introl eq_refl))); pose proof (B b (or_intror (or_introl eq_refl))); lia). subst b. inversion Hd as [|? ? G _]. apply G. now left. }
  fold k. rewrite (quantile_kept tol k xs) by (try assumption; lia).
  assert (Ll : length (quantile_edges k xs) = S k) by (unfold quantile_edges; now rewrite map_length, linspace_length).
  assert (Len : length (inner (quantile_edges k xs)) = (k - 1)%nat) by (unfold inner; rewrite inner_length, Ll; lia).
  assert (Nth : forall i v, nth_error (inner (quantile_edges k xs)) i = Some v -> (S i * (m - 1) <= k * records_below v xs < S i * (m - 1) + k)%nat).
  { intros i v Hv. assert (Hi : (i < k - 1)%nat) by (rewrite <- Len; apply nth_error_Some; congruence). unfold inner in Hv. rewrite inner_nth in Hv by (rewrite Ll; lia). rewrite quantile_edges_nth in Hv by lia. injection Hv as <-. rewrite quantile_interp.
    assert (EM : inject_Z (Z.of_nat (length xs) - 1) == zq (m - 1)) by (rewrite inj_minus, zq_pred by lia; reflexivity). destruct (ratio_bounds (S i) k ltac:(lia) ltac:(lia)) as [R1 R2]. pose proof (zq_pos (m - 1)) as MP.
    set (M := inject_Z (Z.of_nat (length xs) - 1)) in *. pose proof (zq_pred m ltac:(lia)) as EP. fold m.
    assert (H0 : 0 <= zq (S i) / zq k * M) by (rewrite EM; nra). assert (H1 : zq (S i) / zq k * M <= zq (length xs) - 1) by (fold m; rewrite <- EP, EM; nra).
    destruct (below_interp xs (zq (S i) / zq k * M) Hne Hd H0 H1) as [A B]. set (c := records_below _ xs) in *.
    assert (Eh : zq (S i) / zq k * M == zq (S i) / zq k * zq (m - 1)) by (rewrite EM; reflexivity).
    apply zmul_bounds; [eapply Qlt_le_trans; [exact A|rewrite Eh; apply Qle_refl]|eapply Qle_trans; [rewrite <- Eh; apply Qle_refl|exact B]|lia]. }
  assert (Ss : StronglySorted Qlt (inner (quantile_edges k xs))).
  { apply inner_sorted. rewrite <- (quantile_kept tol k xs) by (try assumption; lia). apply drop_narrow_spec; [exact Ht|]. apply quantile_edges_sorted; [lia|exact Hne]. }
  split; [exact Len|]. split; [exact Nth|]. set (s := inner (quantile_edges k xs)) in *.
  set (B := fun j => count (fun x => Nat.ltb (bin_of s x) j) xs).
  assert (Bs : forall j, B (S j) = (B j + bin_count s j xs)%nat).
  { intros j. unfold B, bin_count, count. generalize s. clear. intros s. induction xs as [|x r IH]; [reflexivity|]. cbn [filter]. destruct (Nat.ltb_spec (bin_of s x) (S j)), (Nat.ltb_spec (bin_of s x) j), (Nat.eqb_spec (bin_of s x) j); cbn [length]; lia. }
  assert (B0 : B 0%nat = 0%nat). { unfold B, count. generalize s. clear. intros s. induction xs as [|x r IH]; [reflexivity|]. cbn [filter]. exact IH. }
  assert (Bn : B k = m). { unfold B, count, m. clearbody s. clear - Len Hk. induction xs as [|x r IH]; [reflexivity|]. cbn [filter]. pose proof (bin_of_le s x) as H. rewrite Len in H. destruct (Nat.ltb_spec (bin_of s x) k); [|lia]. cbn [length]. now rewrite IH. }
  assert (Bi : forall j, (j < k)%nat -> (j * (m - 1) <= k * B j < j * (m - 1) + k)%nat).
  { intros [|i] Hj; [rewrite B0; lia|]. destruct (nth_error s i) as [v|] eqn:Ev; [|apply nth_error_None in Ev; lia].
    replace (B (S i)) with (records_below v xs); [now apply (Nth i)|]. unfold B, records_below, count. f_equal. apply filter_ext. intros x. rewrite (bin_of_nth s x Ss i v Ev). destruct (Nat.ltb_spec i (bin_of s x)), (Nat.ltb_spec (bin_of s x) (S i)); try reflexivity; lia. }
  intros j Hj. pose proof (Bs j) as E1. pose proof (Bi j Hj) as E2. destruct (Nat.eq_dec (S j) k) as [Ek|Nk].
  - rewrite Ek, Bn in E1. assert (E3 : (k * m = k * B j + k * bin_count s j xs)%nat) by (rewrite E1; ring). assert (k * m = S j * (m - 1) + k)%nat by (rewrite Ek; nia). split; nia.
  - pose proof (Bi (S j) ltac:(lia)) as E4. assert (E3 : (k * B (S j) = k * B j + k * bin_count s j xs)%nat) by (rewrite E1; ring). split; nia.
Qed.
Print Assumptions C93_quantile_counts.

(** The order of the records does not matter. *)
Lemma quantile_perm xs xs' q : Permutation xs xs' -> quantile xs q = quantile xs' q.
Proof. intros P. unfold quantile. now rewrite (np_sort_eq _ _ P), (Permutation_length P). Qed.
Lemma least_perm xs xs' : Permutation xs xs' -> xs <> [] -> col_min xs = col_min xs'.
Proof. intros P H. apply (least_eq _ _ xs'); [|apply col_min_least; eapply perm_nil; eassumption]. destruct (col_min_least xs H) as [A B]. split; [now apply (Permutation_in _ P)|]. intros x Hx. apply B. now apply (Permutation_in _ (Permutation_sym P)). Qed.
Lemma greatest_perm xs xs' : Permutation xs xs' -> xs <> [] -> col_max xs = col_max xs'.
Proof. intros P H. apply (greatest_eq _ _ xs'); [|apply col_max_greatest; eapply perm_nil; eassumption]. destruct (col_max_greatest xs H) as [A B]. split; [now apply (Permutation_in _ P)|]. intros x Hx. apply B. now apply (Permutation_in _ (Permutation_sym P)). Qed.
Lemma fit_eq tol m n mbs ws xs : (2 <= n)%Z -> xs <> [] -> unsup_fit tol m n mbs ws xs =
  if (col_min xs =? col_max xs)%Z then Ok [] else Ok (inner (match m with Uniform => uniform_edges (Z.to_nat n) (col_min xs) (col_max xs) | Quantile => drop_narrow tol (quantile_edges (Z.to_nat n) xs) end)).
Proof. intros Hn Hne. unfold unsup_fit. destruct (Z.ltb_spec n 2); [lia|]. destruct xs as [|a r]; [congruence|]. destruct (Z.eqb _ _); [reflexivity|]. now destruct m. Qed.
Theorem C93_order tol m n mbs ws xs xs' : Permutation xs xs' -> unsup_fit tol m n mbs ws xs = unsup_fit tol m n mbs ws xs'.
Proof.
  intros P. destruct (Z.ltb_spec n 2) as [L|L]; [unfold unsup_fit; destruct (Z.ltb_spec n 2); [reflexivity|lia]|].
  destruct xs as [|a r]; [apply Permutation_nil in P; now subst|]. assert (H : a :: r <> []) by discriminate. pose proof (perm_nil _ _ P H) as H'.
  rewrite !fit_eq by (try assumption; lia). rewrite <- (least_perm _ _ P H), <- (greatest_perm _ _ P H). destruct (Z.eqb _ _); [reflexivity|]. destruct m; [reflexivity|].
  unfold quantile_edges. rewrite (map_ext _ (quantile xs') (fun q => quantile_perm _ _ q P)). reflexivity.
Qed.
Print Assumptions C93_order.

(** A change of unit and origin is carried over to the split points, when the tolerance is rescaled too. *)
Lemma wide_from_affine (a b : Q) tol : 0 < a -> forall l l' p p', p' == a * p + b -> Forall2 (fun u v => v == a * u + b) l l' ->
  Forall2 (fun u v => v == a * u + b) (wide_from tol p l) (wide_from (a * tol) p' l').
Proof.
  intros Ha. induction l as [|e r IH]; intros l' p p' Hp H; inversion H as [|? e' ? r' H1 H2]; subst; [constructor|]. cbn [wide_from].
  assert (E : Qle_bool (e' - p') (a * tol) = Qle_bool (e - p) tol).
  { apply eq_true_iff_eq. rewrite !Qle_bool_iff, H1, Hp. split; intros G; nra. }
  rewrite E. destruct (Qle_bool (e - p) tol); [now apply IH|]. constructor; [exact H1|now apply IH].
Qed.
Lemma inner_forall2 (R : Q -> Q -> Prop) l l' : Forall2 R l l' -> Forall2 R (inner l) (inner l').
Proof.
  intros H. unfold inner. assert (T : Forall2 R (tl l) (tl l')) by (destruct H; [constructor|assumption]). revert T. generalize (tl l) (tl l'). clear. intros l l' H. induction H as [|x y r r' H1 H2 IH]; [constructor|].
  cbn [removelast]. destruct H2; [constructor|]. constructor; [exact H1|exact IH].
Qed.
Lemma map_forall2 {A} (R : Q -> Q -> Prop) (f g : A -> Q) l : (forall x, In x l -> R (f x) (g x)) -> Forall2 R (map f l) (map g l).
Proof. induction l as [|x r IH]; intros H; cbn; constructor; [apply H; now left|apply IH; intros y Hy; apply H; now right]. Qed.
Theorem C93_units (a b : Z) tol m n mbs ws xs s : (0 < a)%Z -> unsup_fit tol m n mbs ws xs = Ok s ->
  exists s', unsup_fit (inject_Z a * tol) m n mbs ws (map (fun x => (a * x + b)%Z) xs) = Ok s' /\
  Forall2 (fun v v' => v' == inject_Z a * v + inject_Z b) s s'.
Proof.
  intros Ha E. apply fit_inv in E as (Hn & Hne & H). set (f := fun x => (a * x + b)%Z). assert (Hf : map f xs <> []) by (destruct xs; [congruence|discriminate]).
  assert (E1 : col_min (map f xs) = f (col_min xs)).
  { apply (least_eq _ _ (map f xs)); [now apply col_min_least|]. destruct (col_min_least xs Hne) as [A B]. split; [now apply in_map|]. intros x Hx. apply in_map_iff in Hx as (y & <- & Hy). specialize (B y Hy). unfold f. nia. }
  assert (E2 : col_max (map f xs) = f (col_max xs)).
  { apply (greatest_eq _ _ (map f xs)); [now apply col_max_greatest|]. destruct (col_max_greatest xs Hne) as [A B]. split; [now apply in_map|]. intros x Hx. apply in_map_iff in Hx as (y & <- & Hy). specialize (B y Hy). unfold f. nia. }
  rewrite fit_eq by assumption. rewrite E1, E2. destruct H as [[E ->]|[L ->]].
  - rewrite E, Z.eqb_refl. exists []. split; [reflexivity|constructor].
  - destruct (Z.eqb_spec (f (col_min xs)) (f (col_max xs))) as [G|_]; [unfold f in G; nia|]. eexists. split; [reflexivity|]. apply inner_forall2.
    assert (Hq : 0 < inject_Z a) by (change 0 with (inject_Z 0); rewrite <- Zlt_Qlt; exact Ha). destruct m.
    + unfold uniform_edges. apply map_forall2. intros t _. unfold f. rewrite !inj_minus, !inject_Z_plus, !inject_Z_mult. ring.
    + assert (Q : Forall2 (fun v v' => v' == inject_Z a * v + inject_Z b) (quantile_edges (Z.to_nat n) xs) (quantile_edges (Z.to_nat n) (map f xs))).
      { unfold quantile_edges. apply map_forall2. intros q Hq'. unfold linspace01 in Hq'. apply in_map_iff in Hq' as (i & <- & Hi). apply in_seq in Hi. destruct (ratio_bounds i (Z.to_nat n) ltac:(lia) ltac:(lia)). now apply quantile_affine. }
      revert Q. generalize (quantile_edges (Z.to_nat n) xs) (quantile_edges (Z.to_nat n) (map f xs)). intros l l' Q. unfold drop_narrow. destruct Q as [|e e' r r' H1 H2]; [constructor|]. constructor; [exact H1|]. now apply wide_from_affine.
Qed.
Print Assumptions C93_units.

(** "quantile" gives up when too many records share the minimum: with c of m records equal to it and
    (n_bins - 1)(m - 1) <= n_bins (c - 1) there is no split point, whatever the other records are. *)
Lemma wide_flat tol : 0 <= tol -> forall l p, (forall i v, nth_error l i = Some v -> (S i < length l)%nat -> v == p) -> (length (wide_from tol p l) <= 1)%nat.
Proof.
  intros Ht. induction l as [|e r IH]; intros p H; [cbn; lia|]. destruct r as [|e2 r].
  - cbn [wide_from]. destruct (Qle_bool _ _); cbn; lia.
  - assert (E : e == p) by (apply (H 0%nat); [reflexivity|cbn; lia]). change (wide_from tol p (e :: e2 :: r)) with (if Qle_bool (e - p) tol then wide_from tol e (e2 :: r) else e :: wide_from tol e (e2 :: r)).
    assert (Hb : Qle_bool (e - p) tol = true) by (apply Qle_bool_iff; lra). rewrite Hb. apply IH. intros i v Hv Hi. rewrite E. apply (H (S i)); [exact Hv|cbn [length] in *; lia].
Qed.
Theorem C93_min_collapse tol n mbs ws xs lo : 0 <= tol -> (2 <= n)%Z -> least lo xs ->
  ((Z.to_nat n - 1) * (length xs - 1) <= Z.to_nat n * (count (Z.eqb lo) xs - 1))%nat ->
  unsup_fit tol Quantile n mbs ws xs = Ok [].
Proof.
  intros Ht Hn Hlo Hc. assert (Hne : xs <> []) by (intros ->; destruct Hlo as [[] _]). rewrite fit_eq by assumption. destruct (Z.eqb _ _); [reflexivity|]. f_equal.
  set (k := Z.to_nat n) in *. assert (Hk : (2 <= k)%nat) by (unfold k; lia). assert (Hp : 0 < zq k) by (change 0 with (zq 0); apply zq_lt; lia). assert (Lm : (0 < length xs)%nat) by (destruct xs; [congruence|cbn; lia]).
  set (c := count (Z.eqb lo) xs) in *. assert (Em : col_min xs = lo) by (apply (least_eq _ _ xs); [now apply col_min_least|exact Hlo]).
  assert (Hc0 : (0 < c)%nat). { unfold c, count. destruct Hlo as [Hin _]. assert (G : In lo (filter (Z.eqb lo) xs)) by (apply filter_In; split; [exact Hin|apply Z.eqb_refl]). destruct (filter (Z.eqb lo) xs); [destruct G|cbn; lia]. }
  assert (Hcm : (c <= length xs)%nat). { unfold c, count. clear. induction xs as [|x r IH]; [cbn; lia|]. cbn [filter length]. destruct (Z.eqb lo x); cbn [length]; lia. }
  assert (Ec : nth (c - 1) (np_sort xs) 0%Z = lo).
  { destruct (Z.eq_dec (nth (c - 1) (np_sort xs) 0%Z) lo) as [E|N]; [exact E|exfalso]. assert (G : (count (Z.eqb lo) (np_sort xs) <= c - 1)%nat).
    { apply count_le_prefix. intros i Hi Hl. apply Z.eqb_neq. intros E. pose proof (sorted_nth (np_sort xs) (c - 1) i 0%Z (np_sort_sorted xs) Hi Hl) as S1. pose proof (sorted_nth (np_sort xs) 0 (c - 1) 0%Z (np_sort_sorted xs) ltac:(lia) ltac:(lia)) as S2. rewrite sorted_least, Em in S2 by exact Hne. lia. }
    rewrite (count_perm _ _ _ (np_sort_perm xs)) in G. fold c in G. lia. }
  assert (Flat : forall i, (i < k)%nat -> quantile xs (zq i / zq k) == inject_Z lo).
  { intros i Hi. destruct (ratio_bounds i k ltac:(lia) ltac:(lia)) as [R1 R2]. destruct (quantile_between xs (zq i / zq k) Hne R1 R2) as [A _]. destruct (quantile_range xs (zq i / zq k) Hne R1 R2) as [B _]. rewrite Em in B.
    apply Qle_antisym; [|exact B]. rewrite <- Ec. apply A; [|lia]. rewrite <- zq_pred by exact Lm.
    assert (G : zq i * zq (length xs - 1) <= zq k * zq (c - 1)) by (rewrite <- !zq_mul; apply zq_le; nia).
    assert (E : zq i / zq k * zq (length xs - 1) == zq i * zq (length xs - 1) / zq k) by (field; lra). rewrite E. apply Qle_shift_div_r; [exact Hp|]. rewrite (Qmult_comm (zq (c - 1))). exact G. }
  assert (Ll : length (quantile_edges k xs) = S k) by (unfold quantile_edges; now rewrite map_length, linspace_length).
  assert (Nth : forall i, (i <= k)%nat -> nth_error (quantile_edges k xs) i = Some (quantile xs (zq i / zq k))) by (intros i Hi; now apply quantile_edges_nth).
  destruct (quantile_edges k xs) as [|e r]; [reflexivity|]. assert (W : (length (wide_from tol e r) <= 1)%nat).
  { apply wide_flat; [exact Ht|]. intros i v Hv Hi. cbn [length] in Ll. pose proof (Nth 0%nat ltac:(lia)) as N0. injection N0 as ->. pose proof (Nth (S i) ltac:(lia)) as N1. cbn [nth_error] in N1. rewrite Hv in N1. injection N1 as ->. rewrite (Flat (S i)) by lia. symmetry. apply (Flat 0%nat). lia. }
  unfold inner. cbn [drop_narrow tl]. destruct (wide_from tol e r) as [|z [|z2 t]]; cbn [length] in W; [reflexivity|reflexivity|lia].
Qed.
Print Assumptions C93_min_collapse.

(** Neither method looks at min_prebin_size or at the sample weights. *)
Theorem C93_ignored tol m n mbs mbs' ws ws' xs : unsup_fit tol m n mbs ws xs = unsup_fit tol m n mbs' ws' xs.
Proof. reflexivity. Qed.
Print Assumptions C93_ignored.
(** Refuted: every pre-bin has at least min_prebin_size records (as with "cart"). Equal widths leave a pre-bin empty. *)
Theorem C93_min_size_refuted : ~ forall tol m n mbs ws xs s, 0 <= tol -> unsup_fit tol m n mbs ws xs = Ok s ->
  forall j, (j <= length s)%nat -> mbs * zq (length xs) <= zq (bin_count s j xs).
Proof. intros H. specialize (H 0 Uniform 3%Z (1 # 20) None [0; 0; 0; 9]%Z _ ltac:(lra) eq_refl 1%nat). assert (H1 : (1 <= 2)%nat) by lia. specialize (H H1). vm_compute in H. congruence. Qed.
Print Assumptions C93_min_size_refuted.
(** Refuted: "quantile" splits do not depend on the unit of the variable. The tolerance is absolute: values that are closer than it get
    no split, the same values in a finer unit do. *)
Theorem C93_unit_refuted : ~ forall tol n mbs ws (a : Z) xs s s', 0 < tol -> (0 < a)%Z ->
  unsup_fit tol Quantile n mbs ws xs = Ok s -> unsup_fit tol Quantile n mbs ws (map (Z.mul a) xs) = Ok s' -> length s = length s'.
Proof. intros H. specialize (H 10 2%Z 0 None 10%Z [0; 1; 2; 3]%Z _ _ ltac:(lra) ltac:(lia) eq_refl eq_refl). vm_compute in H. discriminate. Qed.
Print Assumptions C93_unit_refuted.

(** The hypotheses are met. *)
Example C93_hyps_met : NoDup [7; 1; 5; 3; 9; 11; 20]%Z /\ (1 # 100) * zq 3 < zq (7 - 1) /\
  exists s, unsup_fit (1 # 100) Quantile 3 0 None [7; 1; 5; 3; 9; 11; 20]%Z = Ok s /\ length s = 2%nat /\ map (fun j => bin_count s j [7; 1; 5; 3; 9; 11; 20]%Z) [0; 1; 2]%nat = [2; 2; 3]%nat.
Proof. split; [repeat constructor; cbn; intuition discriminate|]. split; [reflexivity|]. eexists. split; [reflexivity|]. split; reflexivity. Qed.
Example C93_hyps_met_uniform : exists s, unsup_fit (1 # 100) Uniform 4 0 None [0; 2; 8]%Z = Ok s /\ Forall2 Qeq s [2; 4; 6] /\ least 0%Z [0; 2; 8]%Z /\ greatest 8%Z [0; 2; 8]%Z.
Proof. eexists. split; [reflexivity|]. split; [repeat constructor|]. split; (split; [cbn; tauto|intros x [<-|[<-|[<-|[]]]]; lia]). Qed.
Example C93_hyps_met_collapse : least 0%Z [0; 0; 0; 9]%Z /\ ((Z.to_nat 2 - 1) * (length [0; 0; 0; 9]%Z - 1) <= Z.to_nat 2 * (count (Z.eqb 0) [0; 0; 0; 9]%Z - 1))%nat.
Proof. split; [split; [cbn; tauto|intros x [<-|[<-|[<-|[<-|[]]]]]; lia]|cbn; lia]. Qed.
