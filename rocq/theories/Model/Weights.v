(** Sample and class weights of a binary target: preprocessing.py:180-187 and binning.py:720-750 (numerical variable). *)
From Coq Require Import List ZArith Bool.
From Verif Require Import Model.Arr Model.Core.
Import ListNotations.
Open Scope Z_scope.

(** class_weight_ (184-186): the weights of class 0 and class 1, in units of 1/[cw_unit] *)
Record cweights := { cw_unit : Z; cw0 : Z; cw1 : Z }.
Definition cw_of (c : cweights) (y : yval) : Z := if y_is0 y then cw0 c else cw1 c.
(** compute_class_weight("balanced"): n_samples / (n_classes * count(class)), both classes present *)
Definition balanced (ys : list yval) : cweights :=
  let n := Z.of_nat (length ys) in
  let n0 := Z.of_nat (count_true (map y_is0 ys)) in let n1 := n - n0 in
  {| cw_unit := 2 * n0 * n1; cw0 := n * n1; cw1 := n * n0 |}.
(** 187: sample_weight *= class_weight_[...] *)
Definition times_class (c : cweights) (ys : list yval) (sw : list Z) : list Z := map2 (fun y s => s * cw_of c y) ys sw.
(** 180: sample_weight=None is an array of ones *)
Definition given_weights (n : nat) (sw : option (list Z)) : list Z := match sw with None => repeat 1 n | Some w => w end.

(** OptimalBinning.fit(x, y, sample_weight): the result, and the unit and content of the caller's weight array afterwards.
    [own]: sample_weight is a numpy array of the dtype used for the weights, which _check_sample_weight (180) returns without a
    copy, so that the multiplication in place (187) writes to the caller's array. *)
Definition fit_weighted (own : bool) (cw : option cweights) (wu : Z) (d : divergence) (solver : list Z -> list Z -> list bool)
    (sp : special) (splits0 : list Z) (xs : list xval) (ys : list yval) (sw : list Z) : option (res fitted) * (Z * list Z) :=
  match cw with
  | None => (fit_numerical wu d solver sp None None splits0 xs ys sw, (wu, sw))
  | Some c =>
      let e := times_class c ys sw in
      (fit_numerical (wu * cw_unit c) d solver sp None None splits0 xs ys e, if own then (wu * cw_unit c, e) else (wu, sw))
  end.
