(** The tables of the piecewise binning objects: build(), analysis() and the properties that report statistics.
    optbinning/binning/piecewise/binning_statistics.py. Real arithmetic; the performance metrics are given numbers and the
    significance tests of two rows are functions (scipy). Not modelled: plot, the text of the report and of the bin labels. *)
From Coq Require Import List ZArith Reals Bool Arith.
From Verif Require Import Model.Arr Model.Core Model.Metrics Model.MultiTable Model.Cont Model.ContTable Model.PWLife.
Import ListNotations.
Open Scope Z_scope.

(** binning_statistics.py:143-148, 496-501: the rows after the bins, without Missing *)
Definition pw_n_specials (sp : special) : nat := match sp with SpDict d => length d | _ => 1%nat end.
Definition lastn {A} (n : nat) (l : list A) : list A := skipn (length l - n) l.

(** 122-124: a pair is (Non-event, Event); the event rate of a pure row is 0 *)
Definition b_count (r : Z * Z) : Z := snd r + fst r.
Definition b_rate (r : Z * Z) : R := if (0 <? snd r) && (0 <? fst r) then (IZR (snd r) / IZR (b_count r))%R else 0%R.
(** 120: share of the records *)
Definition b_total (rows : list (Z * Z)) : Z := zsum (map fst rows) + zsum (map snd rows).
Definition b_share (rows : list (Z * Z)) (r : Z * Z) : R := (IZR (b_count r) / IZR (b_total rows))%R.

(** 158-168, 514-524: columns c0, c1, ...; the extra rows show their mean in c0 and 0 elsewhere. An entry is None for NaN. *)
Definition coef_columns (n_extra : nat) (coef : list (list R)) (means : list (option R)) : list (list (option R)) :=
  let n_coefs := match coef with [] => 0%nat | c :: _ => length c end in
  map (fun i => map (fun c => Some (nth i c 0%R)) coef ++
                (if (i =? 0)%nat then lastn n_extra means else repeat (Some 0%R) n_extra)) (seq 0 n_coefs).

(** The data frame: the columns Count, Count (%), then Non-event and Event or the rows of the continuous target, then the
    coefficients, and the Totals row. *)
Inductive bframe_rows := FBin (nev ev : list Z) | FCont (rows : list trow).
Inductive btotals := TotBin (n nev ev : Z) | TotCont (n sum : Z) (mn mx : ext) (zeros : Z).
Record frame := mkFr { fr_count : list Z; fr_share : list R; fr_rows : bframe_rows; fr_coef : list (list (option R));
                       fr_totals : option btotals }.

(** pandas: every column has one entry per label (bins, special rows, Missing), otherwise ValueError *)
Definition fits_index (sp : special) (splits : list Z) (n_rows : nat) (coef : list (list R)) : bool :=
  (n_rows =? S (length splits) + S (pw_n_specials sp))%nat &&
  match coef with [] => true | _ => (length coef =? S (length splits))%nat end.

(** PWBinningTable.build, 94-177 *)
Definition build_bin (sp : special) (splits : list Z) (coef : list (list R)) (rows : list (Z * Z)) (totals : bool) : res frame :=
  if negb (fits_index sp splits (length rows) coef) then Err ValueError else
  Ok (mkFr (map b_count rows) (map (b_share rows) rows) (FBin (map fst rows) (map snd rows))
           (coef_columns (S (pw_n_specials sp)) coef (map (fun r => Some (b_rate r)) rows))
           (if totals then Some (TotBin (b_total rows) (zsum (map fst rows)) (zsum (map snd rows))) else None)).

(** PWContinuousBinningTable.build, 476-537: np.nansum of the sums; the mean of a row without records is 0; Min and Max of
    Totals skip the extra rows *)
Definition pc_mean (r : trow) : option R :=
  if 0 <? r_n r then option_map (fun s => (IZR s / IZR (r_n r))%R) (r_sum r) else Some 0%R.
Definition build_cont (sp : special) (splits : list Z) (coef : list (list R)) (rows : list trow) (totals : bool) : res frame :=
  if negb (fits_index sp splits (length rows) coef) then Err ValueError else
  let bins := firstn (length rows - S (pw_n_specials sp)) rows in
  Ok (mkFr (map r_n rows) (map (ct_share rows) rows) (FCont rows)
           (coef_columns (S (pw_n_specials sp)) coef (map pc_mean rows))
           (if totals then Some (TotCont (zsum (map r_n rows)) (zsum (somes (map r_sum rows)))
                                         (ct_total_min bins) (ct_total_max bins) (zsum (map r_zero rows))) else None)).

(** PWBinningTable.analysis, 315-346: the first n_bins - 2 rows are compared. [test]: the p-value of two rows with 0.5 added to
    the four counts. *)
Definition compared {A} (rows : list A) : list A := firstn (length rows - 2) rows.
Definition b_cramer (rows : list (Z * Z)) : res R :=
  if (2 <=? length (compared rows))%nat then
    match chi2_cramer_v (map fst (compared rows)) (map snd (compared rows)) with Err k => Err k | Ok (_, v) => Ok v end
  else Ok 0%R.
Definition b_pvalues (test : Z * Z -> Z * Z -> R) (rows : list (Z * Z)) : list R := consecutive test (compared rows).
Definition b_quality (test : Z * Z -> Z * Z -> R) (iv : R) (rows : list (Z * Z)) : R :=
  binning_quality_score iv (b_pvalues test rows) (hhi_norm (map (b_share rows) rows)).
(** PWContinuousBinningTable.analysis, 616-655: the Welch test of two rows may be NaN, and then so is the score *)
Definition c_pvalues (test : trow -> trow -> option R) (rows : list trow) : list (option R) := consecutive test (compared rows).
Fixpoint no_nan (l : list (option R)) : option (list R) :=
  match l with [] => Some [] | Some a :: r => option_map (cons a) (no_nan r) | None :: _ => None end.
Definition c_quality (test : trow -> trow -> option R) (rows : list trow) : option R :=
  option_map (fun pv => continuous_quality_score 1000000 pv (ct_hhi_norm rows)) (no_nan (c_pvalues test rows)).

(** ** The table object *)
(** [pa_*]: what analysis() computes *)
Inductive panalysis := ABinary (cramer : R) (pvalues : list R) (quality : R) | AContinuous (pvalues : list (option R)) (quality : option R).
Record ptab := mkTb { tb_sp : special; tb_t : pwtable; tb_built : bool; tb_quality : option R }.   (* tb_quality: analysed *)
Record ttests := mkTT { tt_bin : Z * Z -> Z * Z -> R; tt_cont : trow -> trow -> option R }.
Inductive tabop :=
| TBuild (digits_ok totals_ok totals : bool)         (* the checks of 107 / 489 *)
| TAnalysis (valid : bool)                           (* pvalue_test and n_samples accepted; no such parameter for the continuous table *)
| TStatistic (i : nat)                               (* gini, iv, js, hellinger, triangular, ks: inherited from BinningTable *)
| TQuality.
Inductive tabval := TVFrame (f : frame) | TVAnalysis (a : panalysis) | TVNumber (r : R).
(** position of IV (Jeffrey) in d_metrics: metrics.py:104-123 (Gini index is first) *)
Definition iv_position : nat := 1%nat.
Definition table_iv (t : pwtable) : R := nth iv_position (pt_metrics t) 0%R.
Definition tab_step (tt : ttests) (b : ptab) (c : tabop) : ptab * res tabval :=
  match c, pt_rows (tb_t b) with
  | TBuild dok tok totals, rows =>
      if negb dok then (b, Err ValueError) else if negb tok then (b, Err TypeError) else
      match (match rows with
             | BRows l => build_bin (tb_sp b) (pt_splits (tb_t b)) (pt_coef (tb_t b)) l totals
             | CRows l => build_cont (tb_sp b) (pt_splits (tb_t b)) (pt_coef (tb_t b)) l totals
             end) with
      | Err k => (b, Err k)
      | Ok f => (mkTb (tb_sp b) (tb_t b) true (tb_quality b), Ok (TVFrame f))
      end
  | TAnalysis valid, BRows l =>
      if negb (tb_built b) then (b, Err NotFitted) else
      if negb valid then (b, Err ValueError) else
      match b_cramer l with
      | Err k => (b, Err k)
      | Ok v => let q := b_quality (tt_bin tt) (table_iv (tb_t b)) l in
                (mkTb (tb_sp b) (tb_t b) true (Some q), Ok (TVAnalysis (ABinary v (b_pvalues (tt_bin tt) l) q)))
      end
  | TAnalysis _, CRows l =>
      if negb (tb_built b) then (b, Err NotFitted) else
      (b, Ok (TVAnalysis (AContinuous (c_pvalues (tt_cont tt) l) (c_quality (tt_cont tt) l))))
  | TStatistic i, BRows _ => (b, if negb (tb_built b) then Err NotFitted else
                                 match nth_error (pt_metrics (tb_t b)) i with Some r => Ok (TVNumber r) | None => Err OtherError end)
  | TQuality, BRows _ => (b, match tb_quality b with None => Err NotFitted | Some q => Ok (TVNumber q) end)
  | _, CRows _ => (b, Err OtherError)                 (* AttributeError: the continuous table has no such property *)
  end.
Fixpoint tab_exec (tt : ttests) (b : ptab) (h : list tabop) : ptab * list (res tabval) :=
  match h with
  | [] => (b, [])
  | c :: r => let (b', v) := tab_step tt b c in let (b'', l) := tab_exec tt b' r in (b'', v :: l)
  end.
Definition tab_new (sp : special) (t : pwtable) : ptab := mkTb sp t false None.
