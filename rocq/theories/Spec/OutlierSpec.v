(** Vocabulary for outlier detection. *)
From Coq Require Import List ZArith QArith Qabs Bool Arith Permutation Sorting.
From Verif Require Import Model.Arr Model.Core Model.Outlier Spec.CoreSpec.
Import ListNotations.
Open Scope Q_scope.

Definition zq (n : nat) : Q := inject_Z (Z.of_nat n).
(** [v] is the q-quantile of [l]: with the elements in order s_0 <= ... <= s_(n-1), the value at position q (n - 1), linearly
    interpolated between neighbours. *)
Definition quantile_of (l : list Q) (q v : Q) : Prop :=
  exists s i a b, Permutation l s /\ StronglySorted Qle s /\
    nth_error s i = Some a /\ nth_error s (Nat.min (S i) (length l - 1)) = Some b /\
    let h := q * (zq (length l) - 1) in zq i <= h /\ h <= zq i + 1 /\ v == a + (h - zq i) * (b - a).
Definition median_of (l : list Q) (m : Q) : Prop := quantile_of l (1 # 2) m.
Definition values (xs : list Z) : list Q := map inject_Z xs.

(** [lb, ub] is the first shortest interval spanned by k + 1 consecutive order statistics, k = least integer >= L n *)
Definition shortest_window (L : Q) (xs : list Z) (lb ub : Q) : Prop :=
  exists s k j, Permutation xs s /\ nondecreasing s /\
    L * zq (length xs) <= zq k /\ zq k < L * zq (length xs) + 1 /\ (j + k < length xs)%nat /\
    let at_ i := nth i s 0%Z in
    lb = inject_Z (at_ j) /\ ub = inject_Z (at_ (j + k)%nat) /\
    (forall j', (j' + k < length xs)%nat -> (at_ (j + k)%nat - at_ j <= at_ (j' + k)%nat - at_ j')%Z) /\
    (forall j', (j' < j)%nat -> (at_ (j + k)%nat - at_ j < at_ (j' + k)%nat - at_ j')%Z).
Definition credible_interval (p : range_params) (xs : list Z) (lb ub : Q) : Prop :=
  match r_method p with
  | ETI => quantile_of (values xs) ((1 - r_length p) / 2) lb /\ quantile_of (values xs) ((1 + r_length p) / 2) ub
  | HDI => shortest_window (r_length p) xs lb ub
  end.

(** [x] is an outlier among [xs] *)
Definition range_outlier (p : range_params) (lb ub : Q) (x : Z) : Prop :=
  inject_Z x < lb - r_k p * (ub - lb) \/ ub + r_k p * (ub - lb) < inject_Z x.
Definition zscore_outlier (threshold med mad : Q) (x : Z) : Prop :=
  if Qeq_bool mad 0 then ~ inject_Z x == med
  else threshold < (6745 # 10000) * Qabs (inject_Z x - med) / mad.
(** the flag [b] of [x] is right *)
Definition flag_right (d : detector1) (xs : list Z) (x : Z) (b : bool) : Prop :=
  match d with
  | DRange p => exists lb ub, credible_interval p xs lb ub /\ (b = true <-> range_outlier p lb ub x)
  | DZScore t => exists med mad, median_of (values xs) med /\
      median_of (map (fun x => Qabs (inject_Z x - med)) xs) mad /\ (b = true <-> zscore_outlier t med mad x)
  end.
(** the split points of the y-quantile detector: the distinct i/n quantiles strictly between minimum and maximum *)
Definition quantile_splits (n : nat) (xs : list Z) (splits : list Q) : Prop :=
  StronglySorted Qlt splits /\
  (forall s, In s splits -> exists i, (0 < i < n)%nat /\ quantile_of (values xs) (zq i / zq n) s) /\
  (forall i, (i <= n)%nat -> exists v, quantile_of (values xs) (zq i / zq n) v /\
     (Exists (fun s => s == v) splits \/ (forall x, In x xs -> v <= inject_Z x) \/ (forall x, In x xs -> inject_Z x <= v))).
Definition same_bin (splits : list Q) (x x' : Z) : bool :=
  forallb (fun s => Bool.eqb (Qle_bool s (inject_Z x)) (Qle_bool s (inject_Z x'))) splits.
