(** Pre-binning with method "cart" and the rounding of the split points (split_digits).
    binning/prebinning.py:91-120, binning/binning.py:1063-1072, continuous_binning.py:881-892, multiclass_binning.py:653-662.
    Values are integers in units of 1/u (every finite set of decimals and doubles has a common denominator); u is a multiple of
    10^split_digits, so a unit in the last digit is U = u / 10^split_digits. Simplification: np.round is exact here (in the code the
    result is the double nearest to the decimal). The growing of the tree is sklearn's and is not modelled: a tree is arbitrary. *)
From Coq Require Import List ZArith Bool.
From Verif Require Import Model.Arr Model.Core Model.Cat Model.Cont Model.Multi.
Import ListNotations.
Open Scope Z_scope.

(** A fitted decision tree on one feature. A record goes left when x <= threshold. *)
Inductive tree := Leaf | Node (thr : Z) (l r : tree).
(** est.tree_.threshold: one entry per node in preorder; a leaf has TREE_UNDEFINED = -2. *)
Fixpoint threshold_array (u : Z) (t : tree) : list Z :=
  match t with Leaf => [-2 * u] | Node s l r => s :: threshold_array u l ++ threshold_array u r end.
(** prebinning.py:118-119: splits = np.unique(threshold); splits[splits != TREE_UNDEFINED] *)
Definition tree_splits (u : Z) (t : tree) : list Z := filter (fun s => negb (s =? -2 * u)) (np_unique (threshold_array u t)).

(** np.round to a multiple of [U], ties to even *)
Definition round_to (U v : Z) : Z :=
  let q := v / U in let r := v mod U in
  if 2 * r <? U then q * U else if U <? 2 * r then (q + 1) * U else if Z.even q then q * U else (q + 1) * U.
(** binning.py:1068-1069: [dg] = None for split_digits=None, else the unit U *)
Definition rounded (dg : option Z) (splits : list Z) : list Z := match dg with None => splits | Some U => map (round_to U) splits end.

(** fit with split_digits: the splits (of the pre-binning or of the user) are rounded before the refinement. *)
Definition fit_numerical_d (dg : option Z) (wu : Z) (d : divergence) (solver : list Z -> list Z -> list bool)
    (sp : special) (fixed : option (list bool)) (user : option (list Z)) (splits0 : list Z) xs ys sw :=
  fit_numerical wu d solver sp fixed user (rounded dg splits0) xs ys sw.
Definition fit_categorical_d (dg : option Z) (wu u : Z) (d : divergence) (solver : list Z -> list Z -> list bool)
    (sp : special) (cutoff : option (Z * Z)) (order : list xval -> list yval -> list Z) (prebinning : list csample -> list Z) xs ys sw :=
  fit_categorical wu u d solver sp cutoff order (fun data => rounded dg (prebinning data)) xs ys sw.
Definition fit_cont_d (dg : option Z) (old : stale) (solver : list cstat -> list bool) (sp : special)
    (fixed : option (list bool)) (user : option (list Z)) (splits0 : list Z) (rs : list krec) :=
  fit_cont old solver sp fixed user (rounded dg splits0) rs.
Definition fit_multi_d (dg : option Z) (solver : list (list Z * list Z) -> list bool) (sp : special) (fixed : option (list bool))
    (user : option (list Z)) (splits0 : list Z) (rs : list mrec) :=
  fit_multi solver sp fixed user (rounded dg splits0) rs.
