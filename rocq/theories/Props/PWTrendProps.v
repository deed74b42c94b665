(** C94: what the piecewise binning asks of the regression. *)
From Coq Require Import List ZArith QArith Bool Lia Lqa Permutation Sorted.
From Verif Require Import Model.Arr Model.Core Model.AutoMono Model.PWTrend Spec.CoreSpec Spec.AutoSpec Spec.PWTrendSpec Proofs.PWTrendP.
Import ListNotations.
Open Scope Q_scope.

(** With monotonic_trend="auto" the trend asked of the regression is decided by the bins' true means [ms] alone:
    ascending exactly for strictly increasing or all equal means, descending exactly for strictly decreasing ones, peak exactly for
    other means that first rise and then fall, valley exactly for those that fall and then rise and have no peak shape, and no
    constraint exactly for a single bin or means without any of these shapes. *)
Theorem C94_auto_request : forall splits l ms, nondecreasing splits -> are_bin_means splits l ms ->
  let r := regression_request MAuto splits l in
  let many := (2 <= length ms)%nat in
  (r = MAscending <-> many /\ (strictly_rising ms \/ constant ms)) /\
  (r = MDescending <-> many /\ strictly_falling ms) /\
  (r = MPeak <-> many /\ ~ strictly_monotone_or_constant ms /\ peaked ms) /\
  (r = MValley <-> many /\ ~ strictly_monotone_or_constant ms /\ ~ peaked ms /\ valleyed ms) /\
  (r = MNone <-> length ms = 1%nat \/ (~ strictly_monotone_or_constant ms /\ ~ peaked ms /\ ~ valleyed ms)).
Proof.
  intros splits l ms Hs Hm r many. pose proof (are_means_same_order _ _ _ Hs Hm) as SO. destruct Hm as [L _].
  assert (Hne : ms <> []) by (intros ->; discriminate).
  assert (E : r = shape_request ms).
  { subst r. unfold regression_request. apply request_same_order; [|exact SO]. intros E. apply (f_equal (@length Q)) in E.
    rewrite bin_means_len in E. discriminate. }
  unfold strictly_monotone_or_constant. subst many. rewrite E. clear r E SO.
  assert (M2 : (2 <= length ms)%nat <-> length ms <> 1%nat) by lia.
  assert (X : (2 <= length ms)%nat -> strictly_falling ms -> ~ (strictly_rising ms \/ constant ms)) by apply strict_not_const.
  assert (RP : length ms <> 1%nat -> (strictly_rising ms -> peaked ms) /\ (strictly_falling ms -> peaked ms) /\ (constant ms -> peaked ms)).
  { intros _. split; [|split]; intros H.
    - exists (length ms - 1)%nat. split; [lia|]. split.
      + intros k a b ? ? ? ?. apply Qlt_le_weak. apply (H k); auto; lia.
      + intros k a b ? ? ? Hb. assert (K : nth_error ms (S k) <> None) by congruence. apply nth_error_Some in K. lia.
    - exists 0%nat. split; [lia|]. split; [intros k a b ? ?; lia|]. intros k a b ? ? ? ?. apply Qlt_le_weak. apply (H k a b); auto; lia.
    - exists 0%nat. split; [lia|]. split; [intros k a b ? ?; lia|]. intros k a b ? ? ? ?. apply Qle_lteq. right. symmetry. apply (H k a b); auto; lia. }
  rewrite M2. destruct (request_cases ms Hne) as [C|[C|[C|[C|[C|C]]]]]; rewrite M2 in X; intuition congruence.
Qed.
Print Assumptions C94_auto_request.

(** So "auto" never imposes a shape the bins' means do not have. *)
Theorem C94_auto_sound : forall splits l ms, nondecreasing splits -> are_bin_means splits l ms ->
  match regression_request MAuto splits l with
  | MAscending => rising ms
  | MDescending => falling ms
  | MPeak => peaked ms
  | MValley => valleyed ms
  | MNone => length ms = 1%nat \/ (~ rising ms /\ ~ falling ms)
  | MAuto | MConvex | MConcave => False
  end.
Proof.
  intros splits l ms Hs Hm. destruct (C94_auto_request _ _ _ Hs Hm) as (A & D & P & V & N). cbv zeta in *.
  assert (W : forall R1 R2 : Q -> Q -> Prop, (forall a b, R1 a b -> R2 a b) -> steps R1 ms 0 (length ms) -> steps R2 ms 0 (length ms)).
  { intros R1 R2 I H k a b ? ? ? ?. apply I. apply (H k a b); auto. }
  assert (Hlen : length ms <> 0%nat) by (destruct Hm as [L _]; lia).
  assert (RP : rising ms -> peaked ms).
  { intros H. exists (length ms - 1)%nat. split; [lia|]. split.
    - intros k a b ? ? ? ?. apply (H k); auto; lia.
    - intros k a b ? ? ? Hb. assert (K : nth_error ms (S k) <> None) by congruence. apply nth_error_Some in K. lia. }
  assert (FP : falling ms -> peaked ms).
  { intros H. exists 0%nat. split; [lia|]. split; [intros k a b ? ?; lia|exact H]. }
  destruct (regression_request MAuto splits l) eqn:E.
  - destruct (proj1 N eq_refl) as [H|(_ & H & _)]; tauto.
  - clear - E. unfold regression_request, shape_request in E. destruct (type_of_monotonic_trend _); discriminate.
  - destruct (proj1 A eq_refl) as (_ & [H|H]); [exact (W _ _ Qlt_le_weak H)|].
    apply (W Qeq Qle); [intros a b K; rewrite K; apply Qle_refl|exact H].
  - destruct (proj1 D eq_refl) as (_ & H). apply (W (fun a b => b < a) (fun a b => b <= a)); [intros; now apply Qlt_le_weak|exact H].
  - clear - E. unfold regression_request, shape_request in E. destruct (type_of_monotonic_trend _); discriminate.
  - clear - E. unfold regression_request, shape_request in E. destruct (type_of_monotonic_trend _); discriminate.
  - apply P. reflexivity.
  - apply V. reflexivity.
Qed.
Print Assumptions C94_auto_sound.

(** The request does not depend on the order of the records, nor on the unit and origin of the target. *)
Theorem C94_order_and_unit : forall splits l l' ms c d, nondecreasing splits -> are_bin_means splits l ms -> (0 < c)%Z ->
  Permutation l l' ->
  regression_request MAuto splits (map (fun r => (fst r, c * snd r + d)%Z) l') = regression_request MAuto splits l.
Proof.
  intros splits l l' ms c d Hs Hm Hc P.
  set (l2 := map _ l').
  assert (Hm2 : are_bin_means splits l2 (map (fun m => inject_Z c * m + inject_Z d) ms)).
  { destruct Hm as [L H]. split; [now rewrite map_length|]. intros i m2 E. rewrite nth_error_map in E.
    destruct (nth_error ms i) as [m|] eqn:Em; [|discriminate]. injection E as <-.
    destruct (H i m Em) as (ins & out & Pm & Hne & Hi & Ho & Hmean).
    exists (map (fun r => (fst r, c * snd r + d)%Z) ins), (map (fun r => (fst r, c * snd r + d)%Z) out).
    split; [rewrite <- map_app; apply Permutation_map; etransitivity; eauto|]. split; [destruct ins; [congruence|discriminate]|].
    split; [intros r Hr; apply in_map_iff in Hr as (q & <- & Hq); cbn; auto|].
    split; [intros r Hr; apply in_map_iff in Hr as (q & <- & Hq); cbn; auto|].
    unfold is_mean in *. rewrite !map_length in *. rewrite map_map. cbn [snd].
    transitivity (inject_Z c * (m * inject_Z (Z.of_nat (length ins))) + inject_Z d * inject_Z (Z.of_nat (length ins))); [ring|].
    rewrite Hmean. clear. induction ins as [|r ins IH]; [cbn; ring|]. cbn [map fold_right length].
    rewrite <- IH. rewrite Nat2Z.inj_succ. unfold Z.succ. rewrite !inject_Z_plus, inject_Z_mult. ring. }
  unfold regression_request. apply request_same_order.
  { intros E. apply (f_equal (@length Q)) in E. rewrite bin_means_len in E. discriminate. }
  eapply same_order_trans; [apply are_means_same_order; [exact Hs|exact Hm2]|].
  eapply same_order_trans; [|apply same_order_sym, are_means_same_order; [exact Hs|exact Hm]].
  split; [now rewrite map_length|]. intros i j a b a' b' Ha Hb Ha' Hb'. rewrite nth_error_map, Ha' in Ha. rewrite nth_error_map, Hb' in Hb.
  cbn in Ha, Hb. injection Ha as <-. injection Hb as <-.
  assert (C : 0 < inject_Z c) by (change 0 with (inject_Z 0); now rewrite <- Zlt_Qlt).
  rewrite Qplus_le_l. rewrite Qmult_le_l by exact C. tauto.
Qed.
Print Assumptions C94_order_and_unit.

(** A trend the user names goes to the regression as it is; the inner binning is asked for it too, except convex and concave: its
    choice is then automatic. *)
Theorem C94_named_trend : forall m splits l, m <> MAuto ->
  regression_request m splits l = m /\ (inner_request m = m \/ (inner_request m = MAuto /\ (m = MConvex \/ m = MConcave))) /\
  (m = MConvex \/ m = MConcave -> inner_request m = MAuto).
Proof. intros m splits l H. destruct m; cbn; (split; [reflexivity || congruence|]); split; auto; intros [K|K]; discriminate. Qed.
Print Assumptions C94_named_trend.

(** Means that rise with a tie are asked as a peak, which admits regressions that fall at the end. *)
Theorem C94_ties_refuted : exists splits l ms, nondecreasing splits /\ are_bin_means splits l ms /\ rising ms /\
  regression_request MAuto splits l = MPeak.
Proof.
  exists [1; 2]%Z, [(0, 1); (1, 1); (2, 2)]%Z, [1; 1; 2]. split; [repeat constructor; lia|]. split; [|split; [|reflexivity]].
  - split; [reflexivity|]. intros [|[|[|i]]] m E; cbn in E; try discriminate; try (destruct i; discriminate); injection E as <-.
    + exists [(0, 1)]%Z, [(1, 1); (2, 2)]%Z. split; [reflexivity|]. split; [discriminate|].
      split; [|split]; [intros r [<-|[]]; vm_compute; intuition discriminate|intros r [<-|[<-|[]]]; vm_compute; intuition (try discriminate; auto)|reflexivity].
    + exists [(1, 1)]%Z, [(0, 1); (2, 2)]%Z. split; [cbn; apply perm_swap|]. split; [discriminate|].
      split; [|split]; [intros r [<-|[]]; vm_compute; intuition discriminate|intros r [<-|[<-|[]]]; vm_compute; intuition (try discriminate; auto)|reflexivity].
    + exists [(2, 2)]%Z, [(0, 1); (1, 1)]%Z. split; [cbn; apply (Permutation_cons_append [(0, 1); (1, 1)]%Z)|]. split; [discriminate|].
      split; [|split]; [intros r [<-|[]]; vm_compute; intuition discriminate|intros r [<-|[<-|[]]]; vm_compute; intuition (try discriminate; auto)|reflexivity].
  - intros [|[|[|k]]] a b _ Hk Ha Hb; cbn in Ha, Hb; try discriminate; injection Ha as <-; injection Hb as <-; discriminate.
Qed.
Print Assumptions C94_ties_refuted.

(** n_subsamples: fails exactly when it equals the number of clean records, with ValueError; otherwise the regression is given
    that many clean records (all of them without it or when there are fewer), each with its own prediction, none twice. *)
Theorem C94_subsample : forall (A B : Type) (x : list A) (pred : list B) k perm,
  length x = length pred -> Permutation perm (seq 0 (length x)) -> (forall n, k = Some n -> (1 <= n)%nat) ->
  (k = Some (length x) -> subsample k perm x pred = Err ValueError) /\
  (k <> Some (length x) -> exists xs ps, subsample k perm x pred = Ok (xs, ps) /\
     length xs = length ps /\ sample_of (combine xs ps) (combine x pred) /\
     length xs = match k with None => length x | Some n => Nat.min n (length x) end).
Proof.
  intros A B x pred k perm L P Hk. split.
  - intros ->. cbn [subsample]. rewrite Nat.ltb_irrefl, Nat.leb_refl. reflexivity.
  - intros Hne. assert (Lp : length perm = length x) by (rewrite (Permutation_length P), seq_length; reflexivity).
    assert (All : sample_of (combine x pred) (combine x pred)) by (exists []; now rewrite app_nil_r).
    destruct k as [n|]; cbn [subsample].
    2:{ exists x, pred. auto. }
    destruct (Nat.ltb_spec (length x) n) as [H|H].
    + exists x, pred. rewrite Nat.min_r by lia. auto.
    + assert (n <> length x) by congruence. destruct (Nat.leb_spec (length x) n); [lia|].
      exists (take_at x (firstn n perm)), (take_at pred (firstn n perm)).
      assert (In1 : forall i, In i (firstn n perm) -> (i < length x)%nat).
      { intros i Hi. assert (I : In i perm) by (rewrite <- (firstn_skipn n perm); apply in_or_app; now left).
        apply (Permutation_in _ P), in_seq in I. lia. }
      assert (Lf : length (firstn n perm) = n) by (rewrite firstn_length; lia).
      rewrite !take_at_len by (auto; rewrite <- ?L; auto). rewrite Lf.
      split; [reflexivity|]. split; [reflexivity|]. split; [|lia].
      rewrite take_at_combine by exact L. exists (take_at (combine x pred) (skipn n perm)).
      rewrite <- take_at_app, firstn_skipn. etransitivity; [apply take_at_perm, P|].
      replace (length x) with (length (combine x pred)) by (rewrite combine_length; lia). now rewrite take_at_all.
Qed.
Print Assumptions C94_subsample.

(** Asking for as many records as there are fails, although one fewer and one more are accepted. *)
Theorem C94_subsample_all_refuted : forall (A : Type) (x : list A) perm,
  (2 <= length x)%nat -> Permutation perm (seq 0 (length x)) ->
  subsample (Some (length x)) perm x x = Err ValueError /\
  (exists s, subsample (Some (length x - 1)%nat) perm x x = Ok s) /\ (exists s, subsample (Some (S (length x))) perm x x = Ok s).
Proof.
  intros A x perm H P.
  assert (K : forall n, (1 <= n)%nat -> n <> length x -> exists s, subsample (Some n) perm x x = Ok s).
  { intros n Hn Hne. destruct (C94_subsample A A x x (Some n) perm eq_refl P) as [_ S2]; [intros m E; injection E as <-; exact Hn|].
    destruct S2 as (xs & ps & E & _); [congruence|]. eauto. }
  split; [cbn [subsample]; now rewrite Nat.ltb_irrefl, Nat.leb_refl|]. split; apply K; lia.
Qed.
Print Assumptions C94_subsample_all_refuted.

(** The draw is not stratified by bin: a bin of the inner binning can be left without any record for the regression. *)
Theorem C94_stratified_refuted : exists splits (x : list Z) perm xs,
  Permutation perm (seq 0 (length x)) /\ subsample (Some 2%nat) perm x x = Ok (xs, xs) /\
  (exists v, In v x /\ in_bin_i splits 1 v) /\ (forall v, In v xs -> ~ in_bin_i splits 1 v).
Proof.
  exists [5]%Z, [1; 2; 7]%Z, [0; 1; 2]%nat, [1; 2]%Z. split; [reflexivity|]. split; [reflexivity|]. split.
  - exists 7%Z. split; [cbn; auto|]. vm_compute. intuition congruence.
  - intros v [<-|[<-|[]]]; vm_compute; intuition congruence.
Qed.
Print Assumptions C94_stratified_refuted.

Example C94_hyps_met : exists splits l ms perm, nondecreasing splits /\ are_bin_means splits l ms /\ (2 <= length ms)%nat /\
  regression_request MAuto splits l = MAscending /\ Permutation perm (seq 0 (length l)) /\
  subsample (Some 2%nat) perm l l = Ok ([(6, 4); (1, 1)]%Z, [(6, 4); (1, 1)]%Z).
Proof.
  exists [5]%Z, [(1, 1); (6, 4); (2, 2)]%Z, [3 # 2; 4], [1; 0; 2]%nat. split; [repeat constructor|]. split.
  { split; [reflexivity|]. intros [|[|i]] m E; cbn in E; try discriminate; try (destruct i; discriminate); injection E as <-.
    - exists [(1, 1); (2, 2)]%Z, [(6, 4)]%Z. split; [cbn; constructor; apply perm_swap|]. split; [discriminate|].
      split; [|split]; [intros r [<-|[<-|[]]]; vm_compute; intuition congruence|intros r [<-|[]]; vm_compute; intuition congruence|reflexivity].
    - exists [(6, 4)]%Z, [(1, 1); (2, 2)]%Z. split; [cbn; apply perm_swap|]. split; [discriminate|].
      split; [|split]; [intros r [<-|[]]; vm_compute; intuition congruence|intros r [<-|[<-|[]]]; vm_compute; intuition congruence|reflexivity]. }
  split; [cbn; lia|]. split; [reflexivity|]. split; [cbn; apply perm_swap|]. reflexivity.
Qed.
