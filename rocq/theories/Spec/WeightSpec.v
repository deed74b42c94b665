(** Weights as the documentation describes them. *)
From Coq Require Import List ZArith.
From Verif Require Import Model.Arr Model.Core Model.Weights Spec.CoreSpec.
Import ListNotations.
Open Scope Z_scope.

(** Weight of every record, and the unit it is counted in: sample_weight, times the weight of the record's class if class_weight is given *)
Definition weight_unit (cw : option cweights) (wu : Z) : Z := match cw with None => wu | Some c => wu * cw_unit c end.
Definition record_weight (cw : option cweights) (y : yval) (s : Z) : Z :=
  match cw with None => s | Some c => match y with Y0 => s * cw0 c | _ => s * cw1 c end end.
Definition weighted_rows (cw : option cweights) (xs : list xval) (ys : list yval) (sw : list Z) : list row :=
  map (fun r => (row_x r, row_y r, record_weight cw (row_y r) (row_w r))) (rows xs ys sw).
(** class weights a caller may pass: nonnegative, with a positive unit *)
Definition cw_ok (cw : option cweights) : Prop := match cw with None => True | Some c => 0 < cw_unit c /\ 0 <= cw0 c /\ 0 <= cw1 c end.
(** total weight of a class *)
Fixpoint class_total (cls : yval) (ys : list yval) (w : list Z) : Z :=
  match ys, w with
  | y :: ys', s :: w' => (match cls, y with Y0, Y0 | Y1, Y1 => s | _, _ => 0 end) + class_total cls ys' w'
  | _, _ => 0
  end.
(** (c, u) are the counts: [c] whole units of [u] are at most the weight [W], and [W] exceeds them by less than [n] units *)
Definition loses_less_than (n : Z) (u c W : Z) : Prop := c * u <= W /\ W <= c * u + n * (u - 1).
