(** MulticlassBinningTable.build / analysis and the chi-square statistics of the binary table, over the real numbers.
    The n_event matrix is stored by columns, one list per class (Model/Multi.v). *)
From Coq Require Import List ZArith Bool Reals.
From Verif Require Import Model.Arr Model.Core Model.Multi Model.Metrics Model.MultiT.
Import ListNotations.
Open Scope R_scope.

(** binning_statistics.py:1165 and 1166: row sums, and their sum *)
Definition mb_records (cols : list (list Z)) : list R := map (fun k => IZR (mt_row cols k)) (seq 0 (mt_rows cols)).
Definition mb_total (cols : list (list Z)) : R := rsum (mb_records cols).
(** binning_statistics.py:1167 *)
Definition mb_shares (cols : list (list Z)) : list R := map (fun n => n / mb_total cols) (mb_records cols).
(** binning_statistics.py:1169-1174: Event_rate of class c in row k *)
Definition mb_rate (cols : list (list Z)) (k c : nat) : R :=
  if (0 <? mt_cell cols k c)%Z then IZR (mt_cell cols k c) / IZR (mt_row cols k) else 0.
(** metrics.py:25-38 *)
Definition entropy (x : list R) : R := - rsum (map (fun p => xlogy p p) x).
(** metrics.py:160-196 with weights=None: [n] columns of length [rows] *)
Definition js_multivariate (rows : nat) (X : list (list R)) : R :=
  let w := 1 / INR (length X) in
  entropy (map (fun k => rsum (map (fun col => w * nth k col 0) X)) (seq 0 rows))
  - rsum (map (fun col => w * entropy col) X).
(** binning_statistics.py:1177: the distribution of each class over the rows *)
Definition mb_dists (cols : list (list Z)) : list (list R) :=
  map (fun col => map (fun n => IZR n / IZR (zsum col)) col) cols.
(** binning_statistics.py:1178-1182 *)
Definition mb_js (cols : list (list Z)) : R := js_multivariate (mt_rows cols) (mb_dists cols).
Definition mb_hhi (cols : list (list Z)) : R := hhi (mb_shares cols).
Definition mb_hhi_norm (cols : list (list Z)) : R := hhi_norm (mb_shares cols).
(** binning_statistics.py:1218-1221, Totals: events and event rate of class c *)
Definition mb_total_event (cols : list (list Z)) (c : nat) : R := IZR (mt_event cols c).
Definition mb_total_rate (cols : list (list Z)) (c : nat) : R := mb_total_event cols c / mb_total cols.

(** scipy.stats.chi2_contingency(obs, correction=False), statistic only: expected frequencies are row total times
    column total over the grand total; ValueError when one of them is zero *)
Definition expected (obs : list (list Z)) (k c : nat) : R :=
  IZR (mt_row obs k) * IZR (zsum (nth c obs [])) / IZR (zsum (map zsum obs)).
Definition chi2_contingency (obs : list (list Z)) : res R :=
  let ks := seq 0 (mt_rows obs) in let cs := seq 0 (length obs) in
  if existsb (fun k => Z.eqb (mt_row obs k) 0) ks || existsb (fun c => Z.eqb (zsum (nth c obs [])) 0) cs
  then Err ValueError
  else Ok (rsum (map (fun k => rsum (map (fun c =>
         (IZR (mt_cell obs k c) - expected obs k c) ^ 2 / expected obs k c) cs)) ks)).
(** metrics.py:288-293 ([r] rows, [k] columns) and 280-285 *)
Definition chi2_cramer_v_multi (n_ev : list (list Z)) : res (R * R) :=
  match chi2_contingency n_ev with
  | Err e => Err e
  | Ok t => Ok (t, sqrt (t / IZR (zsum (map zsum n_ev)) / INR (min (length n_ev - 1) (mt_rows n_ev - 1))))
  end.
Definition chi2_cramer_v (n_nev n_ev : list Z) : res (R * R) :=
  match chi2_contingency [n_nev; n_ev] with
  | Err e => Err e
  | Ok t => Ok (t, sqrt (t / (IZR (zsum n_nev) + IZR (zsum n_ev))))
  end.
(** binning_statistics.py:1420-1428: Cramer's V of the clean rows *)
Definition mb_metric (n_specials : nat) (cols : list (list Z)) : nat := (mt_rows cols - 1 - n_specials)%nat.
Definition mb_clean (n_specials : nat) (cols : list (list Z)) : list (list Z) := map (firstn (mb_metric n_specials cols)) cols.
Definition mb_cramer_v (n_specials : nat) (cols : list (list Z)) : res R :=
  if (2 <=? mb_metric n_specials cols)%nat then
    match chi2_cramer_v_multi (mb_clean n_specials cols) with Err e => Err e | Ok (_, v) => Ok v end
  else Ok 0.
(** metrics.py:347-350 *)
Definition multiclass_quality_score (js : R) (n_classes : nat) (pv : list R) (hn : R) : R :=
  binning_quality_score (js / ln (INR n_classes)) pv hn.
(** binning_statistics.py:1430-1437 and 1451-1453; [test]: the p-value of the chi-square test of two consecutive
    rows, here two columns-of-length-two tables *)
Definition mb_pair (cols : list (list Z)) (i : nat) : list (list Z) := map (fun col => firstn 2 (skipn i col)) cols.
Definition mb_quality (test : list (list Z) -> R) (n_specials : nat) (cols : list (list Z)) : R :=
  multiclass_quality_score (mb_js cols) (length cols)
    (map (fun i => test (mb_pair (mb_clean n_specials cols) i)) (seq 0 (mb_metric n_specials cols - 1))) (mb_hhi_norm cols).
(** binning_statistics.py:921-947, BinningTable.analysis: Cramer's V of the clean rows and the two-by-two table of
    each significance test. [obs] is stored by rows (non-event, event) in the code and by columns here; the statistic
    of a contingency table does not change when it is transposed. *)
Definition bt_metric (n_specials n_others : nat) (nev : list Z) : nat := (length nev - 1 - n_specials - n_others)%nat.
Definition bt_cramer_v (n_specials n_others : nat) (nev ev : list Z) : res R :=
  let m := bt_metric n_specials n_others nev in
  if (2 <=? m)%nat then
    match chi2_cramer_v (firstn m nev) (firstn m ev) with Err e => Err e | Ok (_, v) => Ok v end
  else Ok 0.
Definition bt_pair (n_specials n_others : nat) (nev ev : list Z) (i : nat) : list (list Z) :=
  let m := bt_metric n_specials n_others nev in
  [firstn 2 (skipn i (firstn m nev)); firstn 2 (skipn i (firstn m ev))].
