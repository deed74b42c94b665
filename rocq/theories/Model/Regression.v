(** optbinning/metrics/regression.py. Numbers are rationals. A division by zero is nan or inf in numpy, while x / 0 = 0 for Q:
    the definitions below agree with the program only when no denominator is zero. *)
From Coq Require Import List ZArith QArith Qabs Bool.
Import ListNotations.
Open Scope Q_scope.

Definition rsample := (Q * Q)%type.   (* y_true, y_pred *)
Fixpoint qsum (l : list Q) : Q := match l with [] => 0 | a :: r => a + qsum r end.
(** ndarray.mean *)
Definition qmean (l : list Q) : Q := qsum l / inject_Z (Z.of_nat (length l)).
(** np.median: the middle value of the sorted array, or the mean of the two middle values *)
Fixpoint qinsert (a : Q) (l : list Q) : list Q :=
  match l with [] => [a] | b :: r => if Qle_bool a b then a :: l else b :: qinsert a r end.
Fixpoint qsort (l : list Q) : list Q := match l with [] => [] | a :: r => qinsert a (qsort r) end.
Definition qmedian (l : list Q) : Q :=
  let s := qsort l in let n := length s in
  if Nat.even n then (nth (n / 2 - 1) s 0 + nth (n / 2) s 0) / 2 else nth (n / 2) s 0.

(** (y_true - y_pred) / y_true *)
Definition rel_err (s : rsample) : Q := (fst s - snd s) / fst s.
(** e / (np.abs(y_true) + np.abs(y_pred)), with e = np.abs(y_true - y_pred) *)
Definition sym_err (s : rsample) : Q := Qabs (fst s - snd s) / (Qabs (fst s) + Qabs (snd s)).
(** 17-31 *)
Definition mape (d : list rsample) : Q := qmean (map (fun s => Qabs (rel_err s)) d).
(** 34-48 *)
Definition mdape (d : list rsample) : Q := qmedian (map (fun s => Qabs (rel_err s)) d).
(** 51-65 *)
Definition mpe (d : list rsample) : Q := qmean (map rel_err d).
(** 68-83 *)
Definition smape (d : list rsample) : Q := qmean (map sym_err d).
(** 86-101 *)
Definition smdape (d : list rsample) : Q := qmedian (map sym_err d).
