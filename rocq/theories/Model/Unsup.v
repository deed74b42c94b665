(** optbinning/binning/prebinning.py:91-98, the prebinning methods "uniform" and "quantile": scikit-learn's KBinsDiscretizer
    fitted on one column, and its inner bin edges. Values are integers in a common unit, edges rationals; exact arithmetic.
    KBinsDiscretizer draws a random subsample when there are more than 200000 records and strategy "quantile": not modelled.
    [self.kwargs] is empty (nothing else is passed by the binning classes unless the user sets prebinning options). *)
From Coq Require Import List ZArith QArith Bool Arith.
From Verif Require Import Model.Arr Model.Core Model.Outlier.
Import ListNotations.
Open Scope Z_scope.

(** prebinning.py:91, the two methods handed to KBinsDiscretizer *)
Inductive unsup := Uniform | Quantile.
(** column.min() and column.max() *)
Definition col_min (xs : list Z) : Z := fold_right Z.min (hd 0 xs) xs.
Definition col_max (xs : list Z) : Z := fold_right Z.max (hd 0 xs) xs.
(** strategy "uniform": np.linspace(col_min, col_max, n_bins + 1) *)
Definition uniform_edges (n : nat) (lo hi : Z) : list Q :=
  map (fun t => (inject_Z lo + t * inject_Z (hi - lo))%Q) (linspace01 n).
(** strategy "quantile": np.percentile(column, np.linspace(0, 100, n_bins + 1)) *)
Definition quantile_edges (n : nat) (xs : list Z) : list Q := map (quantile xs) (linspace01 n).
(** strategy "quantile": edges[np.ediff1d(edges, to_begin=np.inf) > 1e-8]; [tol] is 1e-8 in the unit of the values. Each edge is
    compared with the one before it in the whole list, kept or not. *)
Fixpoint wide_from (tol p : Q) (l : list Q) : list Q :=
  match l with
  | [] => []
  | e :: r => if Qle_bool (e - p)%Q tol then wide_from tol e r else e :: wide_from tol e r
  end.
Definition drop_narrow (tol : Q) (l : list Q) : list Q := match l with [] => [] | e :: r => e :: wide_from tol e r end.
(** prebinning.py:98, [1:-1] *)
Definition inner (l : list Q) : list Q := removelast (tl l).
(** PreBinning.fit, 91-98, with KBinsDiscretizer.fit: n_bins < 2 is rejected by the parameter validation and an empty column by
    check_array, both with ValueError; a constant column gets the edges -inf, inf. [min_bin_size] and [sample_weight] are not
    used by these two methods. *)
Definition unsup_fit (tol : Q) (m : unsup) (n_bins : Z) (min_bin_size : Q) (sample_weight : option (list Q)) (xs : list Z) : res (list Q) :=
  if n_bins <? 2 then Err ValueError else
  match xs with
  | [] => Err ValueError
  | _ => let lo := col_min xs in let hi := col_max xs in
      if lo =? hi then Ok [] else
      match m with
      | Uniform => Ok (inner (uniform_edges (Z.to_nat n_bins) lo hi))
      | Quantile => Ok (inner (drop_narrow tol (quantile_edges (Z.to_nat n_bins) xs)))
      end
  end.
