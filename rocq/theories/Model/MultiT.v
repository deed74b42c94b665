(** Transform with a multiclass target: one-vs-rest WoE averaged over the classes (real arithmetic). *)
From Coq Require Import List ZArith Reals.
From Verif Require Import Model.Arr Model.Core Model.Multi Model.Metrics.
Import ListNotations.
Open Scope R_scope.

(** entry n_event[k, c], row sum and column sums of the n_event matrix (transformations.py:348-352);
    the matrix is stored by columns *)
Definition mt_cell (cols : list (list Z)) (k c : nat) : Z := nth k (nth c cols []) 0%Z.
Definition mt_row (cols : list (list Z)) (k : nat) : Z := zsum (map (fun col => nth k col 0%Z) cols).
Definition mt_event (cols : list (list Z)) (c : nat) : Z := zsum (nth c cols []).
Definition mt_rows (cols : list (list Z)) : nat := match cols with [] => 0 | c :: _ => length c end.
Definition mt_nonevent (cols : list (list Z)) (c : nat) : Z :=
  zsum (map (fun k => (mt_row cols k - mt_cell cols k c)%Z) (seq 0 (mt_rows cols))).
(** transformations.py:354-364: woe[k, c] *)
Definition mt_woe (cols : list (list Z)) (k c : nat) : R :=
  let e := mt_cell cols k c in
  let n := mt_row cols k in
  if (Z.ltb 0 e && Z.ltb 0 (n - e))%bool
  then er_to_woe (IZR e / IZR n) (IZR (mt_nonevent cols c)) (IZR (mt_event cols c)) else 0.
(** transformations.py:366-369: [woe.mean(axis=1)] and [np.average(woe, weights=t_n_event, axis=1)] *)
Inductive mmetric := MeanWoe | WeightedMeanWoe.
Definition mt_value (m : mmetric) (cols : list (list Z)) (k : nat) : R :=
  let cs := seq 0 (length cols) in
  match m with
  | MeanWoe => rsum (map (mt_woe cols k) cs) / INR (length cols)
  | WeightedMeanWoe => rsum (map (fun c => mt_woe cols k c * IZR (mt_event cols c)) cs)
                       / rsum (map (fun c => IZR (mt_event cols c)) cs)
  end.
(** transformations.py:319-385 for the two WoE metrics, one element of x *)
Definition transform_multi (f : mfitted) (sp : special) (m : mmetric) (ms mm : marg R) (x : xval) : res R :=
  transform1_num (mf_splits f) sp MValue ms mm (map (mt_value m (mf_cols f)) (seq 0 (mt_rows (mf_cols f)))) 0 x.
