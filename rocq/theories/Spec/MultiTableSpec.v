(** Specification vocabulary for the multiclass binning table and for contingency tables. *)
From Coq Require Import List ZArith Bool Reals.
From Verif Require Import Model.Arr Spec.MetricsSpec.
Import ListNotations.
Open Scope R_scope.

Fixpoint total (l : list R) : R := match l with [] => 0 | x :: r => x + total r end.
Definition mean (l : list R) : R := total l / INR (length l).
(** entry of row k in a column *)
Definition at_row (k : nat) (col : list Z) : Z := nth k col 0%Z.
(** a table stored by columns: at least one column, all of length [rows], counts >= 0, no empty column *)
Definition table_ok (rows : nat) (cols : list (list Z)) : Prop :=
  cols <> [] /\ forall col, In col cols -> length col = rows /\ counts_ok col /\ (0 < zsum col)%Z.
(** share of the records of a class (column) that fall in row k *)
Definition share (col : list Z) (k : nat) : R := IZR (at_row k col) / IZR (zsum col).
(** x ln (x / m), with 0 ln 0 = 0 *)
Definition kl_term (x m : R) : R := if Req_EM_T x 0 then 0 else x * ln (x / m).
(** generalised Jensen-Shannon divergence: mean over the classes of the Kullback-Leibler divergence between the
    distribution of the class and the mean distribution *)
Definition doc_js (rows : nat) (cols : list (list Z)) : R :=
  mean (map (fun col => total (map (fun k => kl_term (share col k) (mean (map (fun c => share c k) cols))) (seq 0 rows))) cols).
(** rows put together: group g of the list becomes one row *)
Definition merge_cols (groups : list (list nat)) (cols : list (list Z)) : list (list Z) :=
  map (fun col => map (fun g => zsum (map (fun k => at_row k col) g)) groups) cols.
(** totals of a contingency table *)
Definition row_sum (cols : list (list Z)) (k : nat) : R := IZR (zsum (map (at_row k) cols)).
Definition grand (cols : list (list Z)) : R := IZR (zsum (map zsum cols)).
(** Pearson's statistic: sum of (observed - expected)^2 / expected *)
Definition pearson (rows : nat) (cols : list (list Z)) : R :=
  total (map (fun k => total (map (fun col =>
    let e := row_sum cols k * IZR (zsum col) / grand cols in (IZR (at_row k col) - e) ^ 2 / e) cols)) (seq 0 rows)).
(** rows and columns are independent: every cell is what its row and column totals predict *)
Definition independent (rows : nat) (cols : list (list Z)) : Prop :=
  forall k col, (k < rows)%nat -> In col cols -> IZR (at_row k col) * grand cols = row_sum cols k * IZR (zsum col).
