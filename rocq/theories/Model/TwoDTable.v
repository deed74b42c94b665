(** The tables of OptimalBinning2D and ContinuousOptimalBinning2D as objects: build(), the statistics, plot() and analysis();
    and transform with metric "woe". optbinning/binning/multidimensional/{binning_2d,continuous_binning_2d,binning_statistics_2d,
    transformations_2d}.py. Real numbers instead of floats. Not modelled: the bin labels, the Bayesian columns of analysis(), the
    printed report, colours and axes of the figure. *)
From Coq Require Import List ZArith QArith Bool Arith String Reals Qreals.
From Verif Require Import Model.Arr Model.Core Model.Metrics Model.TwoD Model.TwoDCont Model.MultiTable Model.TwoDPairs.
Import ListNotations.
Open Scope R_scope.

(** ** The matrix D of values per grid cell: binning_2d.py:697-729, continuous_binning_2d.py:627-660. [D0] is np.empty. *)
Definition set_cell_R (v : R) (D : list R) (c : nat) : list R := map (fun k => if Nat.eqb k c then v else nth k D 0) (seq 0 (List.length D)).
Fixpoint assign_R (v : nat -> R) (i : nat) (sel : list (list nat)) (D : list R) : list R :=
  match sel with [] => D | row :: r => assign_R v (S i) r (fold_left (set_cell_R (v i)) row D) end.
(** 711, event rate of bin i; continuous: its mean *)
Definition bin_rate (f : fitted2) (i : nat) : R := IZR (nth i (t_ev f) 0%Z) / (IZR (nth i (t_ev f) 0%Z) + IZR (nth i (t_nev f) 0%Z)).
Definition bin_mean (f : fitted3) (i : nat) : R := IZR (nth i (k_sums f) 0%Z) / IZR (nth i (k_records f) 0%Z).
Definition rate_matrix (f : fitted2) (D0 : list R) : list R := assign_R (bin_rate f) 0 (t_rows f) D0.
Definition mean_matrix (f : fitted3) (D0 : list R) : list R := assign_R (bin_mean f) 0 (t_rows (k_fit f)) D0.
(** binning_statistics_2d.py:254, W *)
Definition woe_matrix (f : fitted2) (D0 : list R) : list R :=
  map (fun d => ln (1 / d - 1) + ln (Metrics.t_ev (TwoD.t_ev f) / Metrics.t_nev (TwoD.t_nev f))) (rate_matrix f D0).

(** ** BinningTable2D.build, 222-340 *)
Record total2 := mkTot2 { to_count : Z; to_nonevent : Z; to_event : Z; to_rate : R; to_iv : R; to_js : R }.   (* 331-336 *)
Record frame2 := mkFr2 {
  fr_count : list Z; fr_share : list R; fr_nonevent : list Z; fr_event : list Z; fr_rate : list R; fr_woe : list R;
  fr_iv : list R; fr_js : list R; fr_totals : option total2 }.
Definition build_2d (f : fitted2) (add_totals : bool) : frame2 :=
  let nev := TwoD.t_nev f in let ev := TwoD.t_ev f in
  mkFr2 (n_records nev ev) (p_records nev ev) nev ev (event_rate nev ev) (Metrics.woe nev ev) (div_rows nev ev jeffrey1) (div_rows nev ev js1)
    (if add_totals then Some (mkTot2 (zsum nev + zsum ev)%Z (zsum nev) (zsum ev) (t_event_rate nev ev) (Metrics.table_iv nev ev) (table_js nev ev)) else None).
(** 257, 268-271, 280: gini, iv, js, hellinger, triangular, ks *)
Definition stats_2d (argsort : list grow -> list grow) (f : fitted2) : list R :=
  let nev := TwoD.t_nev f in let ev := TwoD.t_ev f in
  [gini argsort (combine ev nev); Metrics.table_iv nev ev; table_js nev ev; table_hellinger nev ev; table_triangular nev ev; ks nev ev].

(** ContinuousBinningTable2D.build, 666-690: the statistics iv and woe (the columns are in Model.TwoDCont) *)
Definition cont_iv (f : fitted3) : R := rsum (map Q2R (table_iv f)).
Definition cont_woe (f : fitted3) : R := rsum (map (fun w => Rabs (Q2R w)) (table_woe f)).
Definition cont_shares (f : fitted3) : list R := map (fun n => IZR n / IZR (zsum (k_records f))) (k_records f).

(** ** plot(), 343-450 and 760-828 *)
(** np.count_nonzero(P == p, axis=1).max() and axis=0 *)
Definition wide (m n : nat) (P : list nat) (p : nat) : nat := list_max' (map (fun i => count_occ Nat.eq_dec (p_row n P i) p) (seq 0 m)).
Definition high (m n : nat) (P : list nat) (p : nat) : nat := list_max' (map (fun j => count_occ Nat.eq_dec (p_col m n P j) p) (seq 0 n)).
(** er: the value of every bin of the path, repeated; the last one twice *)
Definition step_line (values : list R) (span : nat -> nat) (path : list nat) : list R :=
  let er := flat_map (fun p => repeat (nth p values 0) (span p)) path in er ++ [last er 0].
(** The lines of the top and right panels, and the number and value drawn in every cell (matshow, text). *)
Record figure := mkFig { fg_top : list (list R); fg_right : list (list R); fg_numbers : list (list nat); fg_values : list (list R) }.
Definition slice {A} (d : A) (n : nat) (P : list A) (i : nat) : list A := map (fun j => nth (i * n + j) P d) (seq 0 n).
(** Axes.step raises ValueError if the two sequences differ in length *)
Definition plot_2d (m n : nat) (P : list nat) (values : list R) (cells : list R) : res figure :=
  let top := map (step_line values (wide m n P)) (fst (get_paths m n P)) in
  let right := map (step_line values (high m n P)) (snd (get_paths m n P)) in
  if negb (forallb (fun l => Nat.eqb (List.length l) (n + 1)) top) then Err ValueError else
  if negb (forallb (fun l => Nat.eqb (List.length l) (m + 1)) right) then Err ValueError else
  Ok (mkFig top right (map (slice 0%nat n P) (seq 0 m)) (map (slice 0 n cells) (seq 0 m))).

(** ** analysis(), 453-545 and 831-905. A p-value is None when it is NaN. *)
Open Scope string_scope.
(** metrics.py:271-277: every name other than "chi2" means Fisher's test *)
Record tests2 := mkTs { ts_chi2 : list (list Z) -> R; ts_fisher : list (list Z) -> R }.
Definition p_value (ts : tests2) (name : string) : list (list Z) -> R := if String.eqb name "chi2" then ts_chi2 ts else ts_fisher ts.
Definition analysis_2d (ts : tests2) (m n : nat) (f : fitted2) (name : string) : res (option R) :=
  match an_cramer f with
  | Err e => Err e
  | Ok _ => Ok (Some (an_quality (p_value ts name) m n f (Metrics.table_iv (TwoD.t_nev f) (TwoD.t_ev f)) (table_hhi_norm (TwoD.t_nev f) (TwoD.t_ev f))))
  end.
(** (mean, std, records) of a bin; [welch]: scipy.stats.ttest_ind_from_stats(..., equal_var=False) *)
Definition cont_bin (f : fitted3) (i : nat) : R * R * Z :=
  (Q2R (nth i (table_means f) 0%Q), sqrt (Q2R (nth i (k_var f) 0%Q)), nth i (k_records f) 0%Z).
Fixpoint all_some {A} (l : list (option A)) : option (list A) :=
  match l with [] => Some [] | Some a :: r => option_map (cons a) (all_some r) | None :: _ => None end.
(** 873-880, metrics.py:353-367: NaN if a p-value is NaN *)
Definition analysis_3d (welch : R * R * Z -> R * R * Z -> option R) (m n : nat) (f : fitted3) : option R :=
  let tm := Q2R (total_mean f) in
  let rwoe := if Req_EM_T tm 0 then cont_woe f else cont_woe f / Rabs tm in
  option_map (fun pv => continuous_quality_score rwoe pv (hhi_norm (cont_shares f)))
    (all_some (map (fun p => welch (cont_bin f (fst p)) (cont_bin f (snd p))) (table_pairs m n (k_fit f)))).

(** ** The table as an object: flags _is_built, _is_analyzed. [k_build]: the frame; [k_stats]: iv, gini, ...; [k_plot] of a metric
    ("woe": true); [k_analysis] of a test name. *)
Record kit (F : Type) := mkKit { k_build : bool -> F; k_stats : list R; k_plot : bool -> res figure; k_analysis : string -> res (option R) }.
Arguments k_build {F}. Arguments k_stats {F}. Arguments k_plot {F}. Arguments k_analysis {F}.
Record tobj := mkT2 { o_built : bool; o_quality : option (option R) }.   (* None: not analyzed *)
Definition new_table : tobj := mkT2 false None.
Inductive top2 := QBuild (bad : option exn) (add_totals : bool) | QStat (i : nat) | QQuality | QPlot (bad : bool) (woe : bool) | QAnalysis (name : string).
Inductive tval2 (F : Type) := QFrame (f : F) | QNumber (r : option R) | QFigure (g : figure) | QNone.
Arguments QFrame {F}. Arguments QNumber {F}. Arguments QFigure {F}. Arguments QNone {F}.
Definition tstep2 {F} (k : kit F) (o : tobj) (c : top2) : tobj * res (tval2 F) :=
  match c with
  | QBuild (Some e) _ => (o, Err e)                                          (* 222-226 *)
  | QBuild None totals => (mkT2 true (o_quality o), Ok (QFrame (k_build k totals)))
  | QStat i => (o, if negb (o_built o) then Err NotFitted else
                   match nth_error (k_stats k) i with Some r => Ok (QNumber (Some r)) | None => Err OtherError end)
  | QQuality => (o, match o_quality o with None => Err NotFitted | Some q => Ok (QNumber q) end)
  | QPlot bad w => (o, if negb (o_built o) then Err NotFitted else if bad then Err ValueError else
                       match k_plot k w with Ok g => Ok (QFigure g) | Err e => Err e end)
  | QAnalysis name =>                                                        (* get_pairs(self._paths_x, ...): no check *)
      if negb (o_built o) then (o, Err OtherError) else
      match k_analysis k name with Err e => (o, Err e) | Ok q => (mkT2 true (Some q), Ok QNone) end
  end.
Fixpoint texec2 {F} (k : kit F) (o : tobj) (h : list top2) : tobj * list (res (tval2 F)) :=
  match h with [] => (o, []) | c :: r => let (o', v) := tstep2 k o c in let (o'', l) := texec2 k o' r in (o'', v :: l) end.
Definition binary_kit (argsort : list grow -> list grow) (ts : tests2) (m n : nat) (f : fitted2) (D0 : list R) : kit frame2 :=
  mkKit _ (build_2d f) (stats_2d argsort f)
    (fun w => if w then plot_2d m n (t_P f) (woe (TwoD.t_nev f) (TwoD.t_ev f)) (woe_matrix f D0)
              else plot_2d m n (t_P f) (event_rate (TwoD.t_nev f) (TwoD.t_ev f)) (rate_matrix f D0))
    (analysis_2d ts m n f).
(** The continuous frame (683-729): records, shares, sums, means, WoE, IV and, with add_totals, their last row (731-737); the column Std
    is in Model.TwoDCont. plot() has no metric. *)
Record total3 := mkTot3 { tc_count : Z; tc_sum : Z; tc_mean : R; tc_woe : R; tc_iv : R }.
Record frame3 := mkFr3 { fc_count : list Z; fc_share : list R; fc_sum : list Z; fc_mean : list R; fc_woe : list R; fc_iv : list R; fc_totals : option total3 }.
Definition build_3d (f : fitted3) (add_totals : bool) : frame3 :=
  mkFr3 (k_records f) (cont_shares f) (k_sums f) (map Q2R (table_means f)) (map Q2R (table_woe f)) (map Q2R (table_iv f))
    (if add_totals then Some (mkTot3 (zsum (k_records f)) (zsum (k_sums f)) (Q2R (total_mean f)) (cont_woe f) (cont_iv f)) else None).
Definition cont_kit (welch : R * R * Z -> R * R * Z -> option R) (m n : nat) (f : fitted3) (D0 : list R) : kit frame3 :=
  mkKit _ (build_3d f) [cont_iv f; cont_woe f]
    (fun _ => plot_2d m n (t_P (k_fit f)) (map Q2R (table_means f)) (mean_matrix f D0))
    (fun _ => Ok (analysis_3d welch m n f)).

(** ** transform(metric="woe"): transformations_2d.py:147-171 *)
Definition woe_column (nev ev : list Z) (t_n t_e : R) : list R :=
  map2 (fun ne e => if ((0 <? e) && (0 <? ne))%Z then ln (1 / (IZR e / IZR (e + ne)) - 1) + ln (t_e / t_n) else 0) nev ev.
Definition transform2_woe (ax ay : axis) (cx cy : option (list xval)) (f : fitted2) (ms mm : marg R) (x y : xval) : res R :=
  let n_bins := List.length (t_bx f) in
  transform2 ax ay cx cy f MValue ms mm
    (woe_column (cut ms mm n_bins (TwoD.t_nev f)) (cut ms mm n_bins (TwoD.t_ev f)) (Metrics.t_nev (TwoD.t_nev f)) (Metrics.t_ev (TwoD.t_ev f))) 0 x y.
