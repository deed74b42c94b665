(** optbinning/binning/outlier.py: the univariate outlier detectors, and their use in preprocessing.py:230-249.
    Values are integers in a common unit, interval lengths, factors and thresholds rationals; arithmetic is exact. *)
From Coq Require Import List ZArith QArith Qabs Qround Bool Arith.
From Verif Require Import Model.Arr Model.Core Model.Mdlp.
Import ListNotations.
Open Scope Z_scope.

(** np.sort *)
Definition np_sort (l : list Z) : list Z := fold_right insert_sorted [] l.
(** np.percentile / np.quantile (100-103, 217) with the default linear interpolation, q in [0, 1], of a non-empty array *)
Definition quantile (xs : list Z) (q : Q) : Q :=
  let s := np_sort xs in
  let h := (q * inject_Z (Z.of_nat (length xs) - 1))%Q in
  let i := Z.to_nat (Qfloor h) in
  let a := nth i s 0 in let b := nth (S i) s a in
  (inject_Z a + (h - inject_Z (Qfloor h)) * inject_Z (b - a))%Q.

Inductive range_method := ETI | HDI.
Record range_params := { r_length : Q; r_k : Q; r_method : range_method }.
Definition default_range : range_params := {| r_length := 1 # 2; r_k := 3 # 2; r_method := ETI |}.   (* 87 *)

(** np.argmin: the first position of the smallest element (112) *)
Fixpoint argmin (l : list Z) : nat :=
  match l with
  | [] => 0
  | a :: r => match r with [] => 0%nat | _ => if a <=? nth (argmin r) r 0 then 0%nat else S (argmin r) end
  end.
(** 104-117: with n_ci = 0 np.argmin raises ValueError *)
Definition n_included (L : Q) (n : nat) : nat := Z.to_nat (Qceiling (L * inject_Z (Z.of_nat n))).
Definition hdi (L : Q) (xs : list Z) : res (Q * Q) :=
  let n := length xs in let s := np_sort xs in let k := n_included L n in
  let ci := map2 Z.sub (skipn k s) (firstn (n - k) s) in
  match ci with
  | [] => Err ValueError
  | _ => let j := argmin ci in Ok (inject_Z (nth j s 0), inject_Z (nth (j + k) s 0))
  end.
(** 98-103 *)
Definition eti (L : Q) (xs : list Z) : Q * Q := (quantile xs ((1 - L) / 2), quantile xs ((1 + L) / 2)).
Definition interval (p : range_params) (xs : list Z) : res (Q * Q) :=
  match r_method p with ETI => Ok (eti (r_length p) xs) | HDI => hdi (r_length p) xs end.
(** RangeDetector._fit, 92-125 (the invalid values of [method] are not expressible). An empty array: nan bounds and an empty
    support for "ETI" (numpy version dependent), ValueError for "HDI". *)
Definition range_fit (p : range_params) (xs : list Z) : res (list bool) :=
  if negb (Qle_bool 0 (r_length p) && Qle_bool (r_length p) 1) then Err ValueError else
  rbind (interval p xs) (fun lu =>
    let iqr := (snd lu - fst lu)%Q in
    let lower_bound := (fst lu - r_k p * iqr)%Q in
    let upper_bound := (snd lu + r_k p * iqr)%Q in
    Ok (map (fun x => negb (Qle_bool (inject_Z x) upper_bound) || negb (Qle_bool lower_bound (inject_Z x))) xs)).

(** np.median, doubled to stay in the integers: the middle element or the mean of the two middle ones (155, 156) *)
Definition median2 (l : list Z) : Z :=
  let s := np_sort l in nth (Nat.div (length l - 1) 2) s 0 + nth (Nat.div (length l) 2) s 0.
(** |x - median|, doubled, and the median of these, times 4 (156) *)
Definition dev2 (xs : list Z) (x : Z) : Z := Z.abs (2 * x - median2 xs).
Definition mad4 (xs : list Z) : Z := median2 (map (dev2 xs) xs).
(** ModifiedZScoreDetector._fit, 148-162. The literal 0.6745 is taken as a decimal. With mad = 0 the score is nan for the
    median itself (the comparison is False) and infinite elsewhere. *)
Definition zscore_fit (threshold : Q) (xs : list Z) : res (list bool) :=
  if negb (Qle_bool 0 threshold) then Err ValueError else
  Ok (map (fun x => if mad4 xs =? 0 then negb (dev2 xs x =? 0)
                    else negb (Qle_bool ((6745 # 10000) * inject_Z (2 * dev2 xs x) / inject_Z (mad4 xs)) threshold)) xs).

(** the two detectors that look at one array *)
Inductive detector1 := DRange (p : range_params) | DZScore (threshold : Q).
Definition fit1 (d : detector1) (xs : list Z) : res (list bool) :=
  match d with DRange p => range_fit p xs | DZScore t => zscore_fit t xs end.
(** get_support(indices=True), 64-65 *)
Definition support_indices (m : list bool) : list nat := select m (seq 0 (length m)).

(** YQuantileDetector, 165-239. np.linspace(0, 1, n_bins + 1) *)
Definition linspace01 (n : nat) : list Q := map (fun i => (inject_Z (Z.of_nat i) / inject_Z (Z.of_nat n))%Q) (seq 0 (S n)).
(** np.unique of the quantiles, which are sorted *)
Fixpoint unique_sorted (l : list Q) : list Q :=
  match l with
  | [] => []
  | a :: r => match r with b :: _ => if Qeq_bool a b then unique_sorted r else a :: unique_sorted r | [] => [a] end
  end.
(** 217: [1:-1] *)
Definition y_splits (n_bins : nat) (xs : list Z) : list Q :=
  removelast (tl (unique_sorted (map (quantile xs) (linspace01 n_bins)))).
(** 219: np.digitize(x, splits, right=False) *)
Definition digitize_q (splits : list Q) (x : Z) : nat := length (filter (fun s => Qle_bool s (inject_Z x)) splits).
(** 232-237, the loop over the bins: the flags of a bin are written to the positions of its samples *)
Fixpoint write_at (ps : list nat) (bs : list bool) (m : list bool) : list bool :=
  match ps, bs with
  | p :: ps', b :: bs' => write_at ps' bs' (if b then firstn p m ++ [true] ++ skipn (S p) m else m)
  | _, _ => m
  end.
Fixpoint y_loop (d : detector1) (idx : list nat) (ys : list Z) (bins : list nat) (support : list bool) : res (list bool) :=
  match bins with
  | [] => Ok support
  | i :: rest =>
      let mask := map (fun k => Nat.eqb k i) idx in
      rbind (fit1 d (select mask ys)) (fun out =>
        y_loop d idx ys rest (write_at (select mask (seq 0 (length idx))) out support))
  end.
Definition yquantile_fit (d : detector1) (n_bins : Z) (xs ys : list Z) : res (list bool) :=
  if n_bins <=? 0 then Err ValueError else                                   (* 210-212 *)
  let splits := y_splits (Z.to_nat n_bins) xs in
  y_loop d (map (digitize_q splits) xs) ys (seq 0 (S (length splits))) (repeat false (length xs)).

(** preprocessing.py:231-249 for a numerical variable: the detector runs on the clean values, and its flagged samples leave the
    clean data with their targets and weights *)
Definition split_outliers (d : detector1) (sp : special) (xs : list xval) (ys : list yval) (sw : list Z) : res split_out :=
  let o := split_masks sp xs ys sw in
  rbind (fit1 d (map num (x_clean o))) (fun m => Ok (keep_clean (mnot m) o)).
