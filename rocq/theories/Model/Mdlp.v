(** MDLP prebinning: optbinning/binning/mdlp.py. Data are (value, label) pairs already sorted by value (105-109: the order
    of equal values is whatever np.argsort returns, so theorems quantify over it). Values are integers; split points are
    integers in units of 1/[unit mc], fine enough for midpoints and np.percentile's linear interpolation to be exact
    (float rounding of the midpoint is not modelled). *)
From Coq Require Import List ZArith Bool.
From Verif Require Import Model.Arr Model.Multi.
Import ListNotations.
Open Scope Z_scope.

Definition xy := (Z * nat)%type.

(** Denominator of the interpolated percentiles of [np.linspace(1, 100, mc)] (135-136). *)
Definition pden (mc : nat) : Z := if (mc =? 1)%nat then 100 else 100 * (Z.of_nat mc - 1).
(** A split s stands for the number s / unit. *)
Definition unit (mc : nat) : Z := 2 * pden mc.

(** 132: 0.5 * (x[1:] + x[:-1])[(y[1:] - y[:-1]) != 0], in units of 1/2 *)
Fixpoint changes (d : list xy) : list Z :=
  match d with
  | a :: r => match r with
              | b :: _ => if (snd a =? snd b)%nat then changes r else (fst a + fst b) :: changes r
              | [] => []
              end
  | [] => []
  end.

(** 135-136: i-th of np.percentile(u, np.linspace(1, 100, mc)); the percentile is 1 + 99 i / (mc - 1) and its virtual index
    (percentile / 100) * (len - 1), here over [pden mc]. *)
Definition percentile (mc : nat) (u : list Z) (i : nat) : Z :=
  let r := (if (mc =? 1)%nat then 1 else (Z.of_nat mc - 1) + 99 * Z.of_nat i) * (Z.of_nat (length u) - 1) in
  let q := Z.to_nat (r / pden mc) in
  let lo := nth q u 0 in
  lo * pden mc + (nth (S q) u lo - lo) * (r mod pden mc).

(** 132-138: candidate splits *)
Definition candidates (mc : nat) (d : list xy) : list Z :=
  let u := np_unique (changes d) in
  if (mc <? length u)%nat then map (percentile mc u) (seq 0 mc) else map (fun s => s * pden mc) u.

(** np.searchsorted(x, split, side="right") on sorted x (124, 143) *)
Fixpoint ss_right (mc : nat) (d : list xy) (s : Z) : nat :=
  match d with [] => 0 | a :: r => if unit mc * fst a <=? s then S (ss_right mc r s) else 0 end.

Section Oracle.
  (** entropy gain (163-170) as a value of any type compared by [gtb] (150), and the MDL stopping test (172-193) *)
  Context {G : Type} (zero : G) (gtb : G -> G -> bool) (gain : list nat -> list nat -> list nat -> G)
          (criterion : list nat -> list nat -> list nat -> bool).

  (** 140-154: first candidate with the largest positive gain *)
  Fixpoint best_split (mc leaf : nat) (d : list xy) (max : G) (best : option Z) (cs : list Z) : option Z :=
    match cs with
    | [] => best
    | s :: r =>
        let t := ss_right mc d s in
        if ((leaf <=? t)%nat && (leaf <=? length d - t)%nat)%bool
        then let g := gain (map snd d) (map snd (firstn t d)) (map snd (skipn t d)) in
             if gtb g max then best_split mc leaf d g (Some s) r else best_split mc leaf d max best r
        else best_split mc leaf d max best r
    end.
  (** 130-154 *)
  Definition find_split (mc leaf : nat) (d : list xy) : option Z := best_split mc leaf d zero None (candidates mc d).

  (** 172-193: [n_x] is the number of distinct values of the node, [n_y] = len(np.bincount(y)) *)
  Definition terminate (min_split : nat) (d : list xy) (t : nat) : bool :=
    let n_x := length (np_unique (map fst d)) in
    let n_y := S (list_max (map snd d)) in
    criterion (map snd d) (map snd (firstn t d)) (map snd (skipn t d)) ||
    negb ((min_split <=? n_x)%nat && (2 <=? n_y)%nat).

  (** 115-128: [splits] is self._splits; the split is appended before the stopping test *)
  Fixpoint recurse (fuel mc leaf min_split : nat) (d : list xy) (splits : list Z) : option (list Z) :=
    match fuel with
    | O => None
    | S f =>
        match find_split mc leaf d with
        | None => Some splits
        | Some s =>
            let splits := splits ++ [s] in
            let t := ss_right mc d s in
            if terminate min_split d t then Some splits
            else match recurse f mc leaf min_split (firstn t d) splits with
                 | Some sp => recurse f mc leaf min_split (skipn t d) sp
                 | None => None
                 end
        end
    end.

  (** 99-113: fit. The object's state is self._splits ([] in __init__, 78); a fit appends to it. *)
  Definition mdlp_fit (mc leaf min_split : nat) (state : list Z) (d : list xy) : option (list Z) :=
    recurse (S (length d)) mc leaf min_split d state.
End Oracle.

(** np.sort (208) *)
Fixpoint insert_sorted (z : Z) (l : list Z) : list Z :=
  match l with [] => [z] | a :: r => if z <=? a then z :: l else a :: insert_sorted z r end.
(** 195-208: the [splits] property *)
Definition mdlp_splits (state : list Z) : list Z := fold_right insert_sorted [] state.
