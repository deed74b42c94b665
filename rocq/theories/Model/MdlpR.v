(** The entropies of optbinning/binning/mdlp.py over the reals. *)
From Coq Require Import List Reals Bool.
From Verif Require Import Model.Arr Model.Mdlp.
Import ListNotations.
Open Scope R_scope.

(** scipy.special.xlogy *)
Definition xlogy (p : R) : R := if Req_EM_T p 0 then 0 else p * ln p.
(** 156-161: the entropy of binary labels (the sum of the labels is the number of ones) *)
Definition entropy (y : list nat) : R :=
  let n := INR (length y) in
  let ns1 := INR (list_sum y) in
  let ns0 := n - ns1 in
  - (xlogy (ns0 / n) + xlogy (ns1 / n)).
(** 163-170 *)
Definition entropy_gain (y y1 y2 : list nat) : R :=
  let n := INR (length y) in let n1 := INR (length y1) in let n2 := n - n1 in
  entropy y - (n1 * entropy y1 + n2 * entropy y2) / n.
(** len(np.bincount(y)) *)
Definition n_classes (y : list nat) : nat := match y with [] => 0 | _ => S (list_max y) end.
(** 175-193, the part before "or not splittable" *)
Definition mdl_rejects (y y1 y2 : list nat) : bool :=
  let n := INR (length y) in
  let k := INR (n_classes y) in let k1 := INR (n_classes y1) in let k2 := INR (n_classes y2) in
  let delta := ln (3 ^ n_classes y - 2) - (k * entropy y - k1 * entropy y1 - k2 * entropy y2) in
  if Rle_dec (entropy_gain y y1 y2) ((ln (n - 1) + delta) / n) then true else false.
Definition Rgtb (a b : R) : bool := if Rgt_dec a b then true else false.
(** MDLP.fit with these functions; [state] is self._splits *)
Definition fit_real (mc leaf min_split : nat) (state : list BinNums.Z) (d : list xy) : option (list BinNums.Z) :=
  mdlp_fit 0 Rgtb entropy_gain mdl_rejects mc leaf min_split state d.
