(** optbinning/scorecard/monitoring.py: system and variable stability. Scores are integers (any ordered values); proportions and
    PSI values are real numbers extended with +inf and nan, since empty bins reach numpy's 0 / 0 and log 0. *)
From Coq Require Import List ZArith QArith Reals Bool.
From Verif Require Import Model.Arr Model.Core Model.Metrics.
Import ListNotations.
Open Scope Z_scope.

Inductive xreal := XFin (r : R) | XInf | XNan.
Definition xadd (a b : xreal) : xreal :=
  match a, b with
  | XNan, _ | _, XNan => XNan
  | XInf, _ | _, XInf => XInf
  | XFin x, XFin y => XFin (x + y)
  end.
(** ndarray.sum *)
Fixpoint xsum (l : list xreal) : xreal := match l with [] => XFin 0 | a :: r => xadd a (xsum r) end.
(** pandas sum: nan entries are skipped *)
Fixpoint xsum_skipna (l : list xreal) : xreal :=
  match l with [] => XFin 0 | XNan :: r => xsum_skipna r | a :: r => xadd a (xsum_skipna r) end.

(** metrics.py:107-132 on proportions x = a / ta and y = e / te: xlogy(x - y, x / y). x / y is nan for 0 / 0 and inf for x / 0;
    xlogy(z, nan) = nan, xlogy(x, inf) = inf and xlogy(- y, 0) = inf. *)
Definition psi_row (ta te : Z) (ae : Z * Z) : xreal :=
  let (a, e) := ae in
  if ((ta =? 0) || (te =? 0))%bool then XNan
  else if (e =? 0) then (if a =? 0 then XNan else XInf)
  else if (a =? 0) then XInf
  else XFin (jeffrey1 (IZR a / IZR ta) (IZR e / IZR te)).
(** monitoring.py:582-600 / 796-801: the PSI column for the counts (Count A, Count E) *)
Definition psi_column (rows : list (Z * Z)) : list xreal :=
  let ta := zsum (map fst rows) in let te := zsum (map snd rows) in map (psi_row ta te) rows.
(** 599: the entry of the Totals row *)
Definition psi_total (rows : list (Z * Z)) : xreal := xsum (psi_column rows).
(** 402-404: psi_variable_table(style="summary") *)
Definition psi_summary (rows : list (Z * Z)) : xreal := xsum_skipna (psi_column rows).

(** ** _fit_system, 483-562, binary target: samples are (y == 0, score) *)
Definition ssample := (bool * Z)%type.
Definition count_if {A} (p : A -> bool) (l : list A) : Z := Z.of_nat (length (filter p l)).
(** 502-503 and 518-525 *)
Definition sys_nonevent (splits : list Z) (d : list ssample) (i : nat) : Z :=
  count_if (fun s => fst s && Nat.eqb (digitize_r splits (snd s)) i) d.
Definition sys_event (splits : list Z) (d : list ssample) (i : nat) : Z :=
  count_if (fun s => negb (fst s) && Nat.eqb (digitize_r splits (snd s)) i) d.
(** 527-528 *)
Definition sys_records (splits : list Z) (d : list ssample) : list Z :=
  map (fun i => sys_nonevent splits d i + sys_event splits d i) (seq 0 (S (length splits))).
(** psi_table: rows (Count A, Count E) *)
Definition sys_rows (splits : list Z) (actual expected : list ssample) : list (Z * Z) :=
  map2 pair (sys_records splits actual) (sys_records splits expected).
(** 671-694: (number of records, event records, nonevent records, event rate) *)
Definition target_analysis (splits : list Z) (d : list ssample) : Z * Z * Z * Q :=
  let idx := seq 0 (S (length splits)) in
  let n := zsum (sys_records splits d) in
  let e := zsum (map (sys_event splits d) idx) in
  (n, e, zsum (map (sys_nonevent splits d) idx), (inject_Z e / inject_Z n)%Q).

(** ** _fit_variables, 776-817. The indices come from optb.transform(x, metric="indices") with the default
    metric_special = metric_missing = 0. *)
Definition var_indices (splits : list Z) (sp : special) (xs : list xval) : list (res Z) :=
  map (transform_indices splits sp (Const true 0) (Const true 0)) xs.
(** 787-794 for the index arrays ta and te *)
Definition var_rows (ta te : list Z) : list (Z * Z) :=
  map (fun i => (count_if (Z.eqb (Z.of_nat i)) ta, count_if (Z.eqb (Z.of_nat i)) te)) (seq 0 (Z.to_nat (fold_right Z.max 0 te + 1))).
