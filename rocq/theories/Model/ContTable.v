(** ContinuousBinningTable: build and analysis, over the real numbers (no floating point rounding). The rows
    of the table are those of Model/Cont.v: integer weights, integer targets (so every column is in the unit
    of the integer targets). NaN is [None] (or [ENaN] in the Min / Max columns). *)
From Coq Require Import List ZArith Bool Reals.
From Verif Require Import Model.Arr Model.Core Model.Cont Model.Metrics.
Import ListNotations.
Open Scope R_scope.

(** binning_statistics.py:1629 [np.nansum] of the Count column (never NaN) *)
Definition ct_records (rows : list trow) : R := IZR (zsum (map r_n rows)).
(** binning_statistics.py:1630 [np.nansum] of the Sum column: NaN entries are left out *)
Definition ct_sum (rows : list trow) : R := IZR (zsum (somes (map r_sum rows))).
(** binning_statistics.py:1631 *)
Definition ct_mean (rows : list trow) : R := ct_sum rows / ct_records rows.
(** binning_statistics.py:1632 *)
Definition ct_share (rows : list trow) (r : trow) : R := IZR (r_n r) / ct_records rows.
(** binning_statistics.py:1634-1636 *)
Definition ct_row_mean (r : trow) : option R :=
  if (0 <? r_n r)%Z then option_map (fun s => IZR s / IZR (r_n r)) (r_sum r) else Some 0.
(** binning_statistics.py:1639 *)
Definition ct_woe (rows : list trow) (r : trow) : option R :=
  option_map (fun u => u - ct_mean rows) (ct_row_mean r).
(** binning_statistics.py:1640 *)
Definition ct_iv (rows : list trow) (r : trow) : option R :=
  option_map (fun w => Rabs w * ct_share rows r) (ct_woe rows r).
(** [ndarray.sum]: NaN as soon as one entry is NaN *)
Fixpoint np_sum (l : list (option R)) : option R :=
  match l with
  | [] => Some 0
  | Some a :: r => option_map (Rplus a) (np_sum r)
  | None :: _ => None
  end.
(** binning_statistics.py:1641-1642 *)
Definition ct_total_iv (rows : list trow) : option R := np_sum (map (ct_iv rows) rows).
Definition ct_total_woe (rows : list trow) : option R := np_sum (map (fun r => option_map Rabs (ct_woe rows r)) rows).
(** binning_statistics.py:1651-1652 *)
Definition ct_hhi (rows : list trow) : R := hhi (map (ct_share rows) rows).
Definition ct_hhi_norm (rows : list trow) : R := hhi_norm (map (ct_share rows) rows).

(** [np.nanmin] / [np.nanmax] *)
Definition is_nan (e : ext) : bool := match e with ENaN => true | _ => false end.
Fixpoint nan_fold (f : ext -> ext -> ext) (l : list ext) : ext :=
  match l with
  | [] => ENaN
  | e :: r => if is_nan e then nan_fold f r
              else match nan_fold f r with ENaN => e | m => f e m end
  end.
(** binning_statistics.py:1688-1694, the Totals row *)
Definition ct_total_min (rows : list trow) : ext := nan_fold emin (map r_min rows).
Definition ct_total_max (rows : list trow) : ext := nan_fold emax (map r_max rows).
Definition ct_total_zeros (rows : list trow) : Z := zsum (map r_zero rows).

(** binning_statistics.py:1977-1999: the p-values of the Welch tests between consecutive bins, without the special,
    missing and "others" rows. [test] is scipy's [ttest_ind_from_stats] on the rows. *)
Definition ct_metric (n_specials n_others : nat) (rows : list trow) : nat := (length rows - 1 - n_specials - n_others)%nat.
Fixpoint consecutive {A B} (f : A -> A -> B) (l : list A) : list B :=
  match l with a :: ((b :: _) as r) => f a b :: consecutive f r | _ => [] end.
Definition ct_pvalues (test : trow -> trow -> R) (n_specials n_others : nat) (rows : list trow) : list R :=
  consecutive test (firstn (ct_metric n_specials n_others rows) rows).
(** binning_statistics.py:2015-2021 *)
Definition ct_rwoe (rows : list trow) (woe : R) : R :=
  if Req_EM_T (ct_mean rows) 0 then woe else woe / Rabs (ct_mean rows).
Definition ct_quality (test : trow -> trow -> R) (n_specials n_others : nat) (rows : list trow) : option R :=
  option_map (fun w => continuous_quality_score (ct_rwoe rows w) (ct_pvalues test n_specials n_others rows) (ct_hhi_norm rows))
    (ct_total_woe rows).
