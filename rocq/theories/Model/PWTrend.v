(** What the piecewise binning asks of the inner binning and of the regression: optbinning/binning/piecewise/base.py 356-360 (trend of
    the inner binning), 418-434 (subsample), 439-455 (trend of the regression). The records are the clean ones (after the outlier
    detector), integer values and targets; means are exact rationals. Not modelled: the regression itself (ropwr), time and logging. *)
From Coq Require Import List ZArith QArith Bool.
From Verif Require Import Model.Arr Model.Core Model.AutoMono.
Import ListNotations.

(** the values accepted for monotonic_trend (base.py 111-117) *)
Inductive pw_mono := MNone | MAuto | MAscending | MDescending | MConvex | MConcave | MPeak | MValley.
(** 357-360 *)
Definition inner_request (m : pw_mono) : pw_mono := match m with MConcave | MConvex => MAuto | _ => m end.
(** 440: indices == i *)
Definition bin_targets (splits : list Z) (l : list (Z * Z)) (i : nat) : list Z :=
  map snd (filter (fun r => Nat.eqb (digitize splits (fst r)) i) l).
(** 441: y[indices == i].mean() *)
Definition zmean (ys : list Z) : Q := (inject_Z (zsum ys) / inject_Z (Z.of_nat (length ys)))%Q.
Definition bin_means (splits : list Z) (l : list (Z * Z)) : list Q :=
  map (fun i => zmean (bin_targets splits l i)) (seq 0 (S (length splits))).
(** 443-449: [None] is Python's None (no constraint) *)
Definition shape_request (mean : list Q) : pw_mono :=
  match type_of_monotonic_trend mean with
  | Undefined | NoMonotonic => MNone
  | NPeak | NPeakConcave => MPeak
  | NValley | NValleyConvex => MValley
  | NAscending => MAscending
  | NDescending => MDescending
  end.
(** 439-455. A bin without clean records has mean nan: not modelled (the split points come from a fit on these records). *)
Definition regression_request (m : pw_mono) (splits : list Z) (l : list (Z * Z)) : pw_mono :=
  match m with MAuto => shape_request (bin_means splits l) | _ => m end.

(** 418-434. train_test_split with an integer test_size >= 1: ValueError when test_size >= n; otherwise the test part is the first
    test_size positions of a random permutation of the positions (sklearn ShuffleSplit), [perm] here; the estimator's predictions are
    split alike. *)
Definition take_at {A} (l : list A) (pos : list nat) : list A :=
  flat_map (fun i => match nth_error l i with Some a => [a] | None => [] end) pos.
Definition subsample {A B} (n_subsamples : option nat) (perm : list nat) (x : list A) (pred : list B) : res (list A * list B) :=
  match n_subsamples with
  | None => Ok (x, pred)
  | Some k => if Nat.ltb (length x) k then Ok (x, pred)
              else if Nat.leb (length x) k then Err ValueError
              else Ok (take_at x (firstn k perm), take_at pred (firstn k perm))
  end.
