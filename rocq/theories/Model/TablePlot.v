(** The figures of the one-dimensional binning tables: BinningTable.plot, MulticlassBinningTable.plot and ContinuousBinningTable.plot
    (binning/binning_statistics.py:610-877, 1228-1396, 1700-1949), and the part of build() they rely on (_n_specials, _bin_str, _is_built).
    A figure is the data handed to matplotlib: heights and positions of the bars, vertices of the metric line, markers, hatched bars,
    tick labels and legend. Colours (but for their number), fonts and the saved file are not modelled. *)
From Coq Require Import List ZArith QArith Bool Arith Ascii String Reals.
From Verif Require Import Model.Arr Model.Core Model.Cont Model.Metrics Model.ContTable Model.Multi Model.MultiT Model.MultiTable Model.Label Model.Lifecycle Model.ContLife Model.MultiLife.
Import ListNotations.
Open Scope string_scope.
Open Scope nat_scope.

(** What plot() reads. [pt_series]: one list of counts per stacked bar, from bottom to top (binary: Event, Non-event; continuous:
    Count; multiclass: one per class); [pt_metric name]: one column per line (binary and continuous: one; multiclass: one per class,
    whatever the name; None is NaN); [pt_specials]: _n_specials; [pt_others]: len(cat_others) > 0; [pt_text digits]: the column "Bin" that
    build(show_digits=digits) stores; [pt_range]: min_x and max_x. *)
Inductive kind := KBinary | KContinuous | KMulticlass.
Record ptable := mkPT {
  pt_kind : kind; pt_categorical : bool; pt_series : list (list Z); pt_metric : string -> list (list (option R)); pt_names : list string;
  pt_specials : nat; pt_others : bool; pt_text : nat -> list string; pt_splits : list Z; pt_range : option (Z * Z) }.
(** The arguments. [_ok] flags: the value has the documented type. *)
Record pargs := mkPA { pa_metric : string; pa_flags_ok : bool; pa_style : string; pa_labels_ok : bool; pa_figsize_ok : bool; pa_save_ok : bool;
  pa_special : bool; pa_missing : bool; pa_labels : bool }.

(** list.pop(-2) and list.pop(-1) *)
Definition pop2 {A} (l : list A) : res (list A) :=
  if List.length l <? 2 then Err IndexError else Ok (firstn (List.length l - 2) l ++ skipn (List.length l - 1) l)%list.
Fixpoint pops {A} (n : nat) (l : list A) : res (list A) := match n with O => Ok l | S k => rbind (pop2 l) (pops k) end.
Definition pop1 {A} (l : list A) : res (list A) := if List.length l <? 1 then Err IndexError else Ok (firstn (List.length l - 1) l).
(** 710-721, 1276-1286, 1795-1802 *)
Definition hide {A} (n_sp : nat) (add_sp add_miss : bool) (l : list A) : res (list A) :=
  rbind (if add_sp then Ok l else pops n_sp l) (fun l => if add_miss then Ok l else pop1 l).
(** ax1.bar(range(n_bins), heights, bottom=...) for the series in order: (bottom, height) of each bar (723-725, 1290-1295, 1804) *)
Fixpoint stack (base : list Z) (series : list (list Z)) : list (list (Z * Z)) :=
  match series with [] => [] | s :: r => combine base s :: stack (map2 Z.add base s) r end.

(** A figure of style "bin": [bf_lines]: the vertices of each metric line; [bf_points]: the single markers of each metric;
    [bf_special], [bf_missing]: hatched bars; [bf_faded]: the bar of the category "others"; [bf_ticks]: the labels under positions
    0, 1, 2, ... when asked for; [bf_legend]: the entries of the legend. *)
Record binfig := mkBF { bf_bars : list (list (Z * Z)); bf_lines : list (list (nat * option R)); bf_points : list (list (nat * option R));
  bf_special : list nat; bf_missing : list nat; bf_faded : list nat; bf_ticks : option (list string); bf_legend : list string }.
(** metric_values[pos] of every metric, with the bar at that position restyled (p[pos]): positions of the list, in order *)
Definition marks (n_shown : nat) (m : list (option R)) (ps : list nat) : res (list (nat * option R)) :=
  all_res (map (fun p => if p <? n_shown then match nth_error m p with Some v => Ok (p, v) | None => Err IndexError end else Err IndexError) ps).
(** _bin_str_label_format (406-414) *)
Definition short_label (s : string) : string := if 27 <? String.length s then String.append (String.substring 0 27 s) "..." else s.
(** 789-799: the tick labels *)
Definition ticks (t : ptable) (text : list string) (add_sp add_miss : bool) : res (list string) :=
  let l := if pt_categorical t then map short_label text else text in
  rbind (if add_sp then Ok l else match rev l with [] => Err IndexError | x :: _ => Ok (firstn (List.length l - 2) l ++ [x])%list end)
    (fun l => Ok (if add_miss then l else firstn (List.length l - 1) l)).
(** COLORS_RGB (36-60) *)
Definition n_colours : nat := 100.

(** style="bin": 703-803, 1267-1367, 1788-1878. [text]: _bin_str of the last build. Simplification: n_metric is a truncated difference
    (a table has at least _n_specials + 1 rows). *)
Definition plot_bins (t : ptable) (text : list string) (a : pargs) : res binfig :=
  let add_sp := pa_special a in let add_miss := pa_missing a in
  let S := pt_specials t in
  let n_rows := List.length (hd [] (pt_series t)) in
  let n_metric := n_rows - 1 - S - (if pt_others t then 1 else 0) in
  let n_shown := n_rows - (if add_sp then 0 else S) - (if add_miss then 0 else 1) in
  let metrics := pt_metric t (pa_metric a) in
  if (match pt_kind t with KMulticlass => n_colours <? List.length (pt_series t) | _ => false end) then Err IndexError else    (* colors[i] *)
  rbind (all_res (map (hide S add_sp add_miss) (pt_series t))) (fun hs =>
  if negb (forallb (fun h => List.length h =? n_shown) hs) then Err ValueError else
  if negb (forallb (fun m => n_metric <=? List.length m) metrics) then Err ValueError else
  let pos_special := (if add_sp then n_metric else 0) + (if pt_others t then 1 else 0) in
  let pos_missing := (if add_miss then if add_sp then n_metric + S else n_metric else 0) + (if pt_others t then 1 else 0) in
  let faded := if pt_others t then [n_metric] else [] in
  let special := if add_sp then map (fun s => pos_special + s) (seq 0 S) else [] in
  let missing := if add_miss then [pos_missing] else [] in
  rbind (all_res (map (fun m => marks n_shown m (faded ++ special ++ missing)) metrics)) (fun pts =>
  rbind (if pa_labels a then rbind (ticks t text add_sp add_miss) (fun l => Ok (Some l)) else Ok None) (fun tk =>
  Ok (mkBF (stack (repeat 0%Z n_shown) hs) (map (fun m => combine (seq 0 n_metric) (firstn n_metric m)) metrics) pts
           special missing faded tk
           (pt_names t ++ (if add_sp then ["Bin special"] else []) ++ (if add_miss then ["Bin missing"] else []))%list)))).

(** style="actual": 805-856, 1880-1926. Bars (left edge, width, bottom, height), one horizontal segment (from, to, value) per bin, one
    marker (abscissa, value) per bin, vertical lines. *)
Record actfig := mkAF { af_bars : list (list (Z * Z * Z * Z)); af_segments : list (Z * Z * option R); af_points : list (Q * option R); af_vlines : list Z }.
Definition cut_tail {A} (k : nat) (l : list A) : list A := firstn (List.length l - k) l.                 (* l[:-k], k > 0 *)
Fixpoint spans (edges : list Z) : list (Z * Z) := match edges with a :: ((b :: _) as r) => (a, b) :: spans r | _ => [] end.
Definition plot_actual (t : ptable) (a : pargs) (lo hi : Z) : res actfig :=
  let hs := map (cut_tail (S (pt_specials t))) (pt_series t) in
  let sp := spans (lo :: pt_splits t ++ [hi])%list in
  let n := S (List.length (pt_splits t)) in
  let m := hd [] (pt_metric t (pa_metric a)) in
  if negb (forallb (fun h => List.length h =? n) hs) then Err ValueError else                                  (* ax1.bar *)
  rbind (all_res (map (fun i => match nth_error m i, nth_error sp i with Some v, Some (x, y) => Ok (x, y, v) | _, _ => Err IndexError end) (seq 0 n))) (fun seg =>
  let mv := cut_tail (S (pt_specials t)) m in
  if negb (List.length mv =? n) then Err ValueError else                                                       (* ax2.plot *)
  Ok (mkAF (map (fun bh => map2 (fun xy bz => (fst xy, (snd xy - fst xy)%Z, fst bz, snd bz)) sp bh) (stack (repeat 0%Z n) hs))
           seg (map2 (fun xy v => ((inject_Z (snd xy - fst xy) / 2 + inject_Z (fst xy))%Q, v)) sp mv) (pt_splits t))).

(** The checks before anything is drawn: 651-690, 1252-1265, 1737-1779 (in this order). *)
Definition metric_known (k : kind) (s : string) : bool :=
  match k with
  | KBinary => (s =? "event_rate") || (s =? "woe") || (s =? "iv")
  | KContinuous => (s =? "mean") || (s =? "iv") || (s =? "woe")
  | KMulticlass => true
  end%string.
Definition guard1 (bad : bool) (e : exn) (k : option exn) : option exn := if bad then Some e else k.
Definition actual (a : pargs) : bool := (pa_style a =? "actual")%string.
Definition style_known (s : string) : bool := ((s =? "bin") || (s =? "actual"))%string.
Definition check_actual (t : ptable) (a : pargs) : option exn :=
  if actual a then guard1 (pt_categorical t) ValueError (guard1 (match pt_range t with None => true | _ => false end) ValueError None) else None.
Definition check_plot (t : ptable) (a : pargs) : option exn :=
  match pt_kind t with
  | KBinary =>
      guard1 (negb (metric_known KBinary (pa_metric a))) ValueError (guard1 (negb (pa_flags_ok a)) TypeError (
      guard1 (negb (style_known (pa_style a))) ValueError (guard1 (negb (pa_labels_ok a)) TypeError (
      guard1 (pa_labels a && actual a) ValueError (guard1 (negb (pa_figsize_ok a)) TypeError (check_actual t a))))))
  | KContinuous =>
      guard1 (negb (pa_flags_ok a)) TypeError (
      guard1 (negb (style_known (pa_style a))) ValueError (guard1 (negb (pa_labels_ok a)) TypeError (
      guard1 (pa_labels a && actual a) ValueError (guard1 (negb (pa_figsize_ok a)) TypeError (
      guard1 (negb (metric_known KContinuous (pa_metric a))) ValueError (check_actual t a))))))
  | KMulticlass =>
      guard1 (negb (pa_flags_ok a)) TypeError (guard1 (negb (pa_labels_ok a)) TypeError (guard1 (negb (pa_figsize_ok a)) TypeError None))
  end.
Inductive pfigure := FBin (f : binfig) | FActual (f : actfig).
(** The whole call. [st]: _bin_str, None before build(). The type of savefig is checked when everything is drawn (858-877). *)
Definition plot1 (t : ptable) (st : option (list string)) (a : pargs) : res pfigure :=
  match st with
  | None => Err NotFitted
  | Some text =>
      match check_plot t a with
      | Some e => Err e
      | None =>
          rbind (match pt_kind t, actual a, pt_range t with
                 | KMulticlass, _, _ | _, false, _ => rbind (plot_bins t text a) (fun f => Ok (FBin f))
                 | _, true, Some (lo, hi) => rbind (plot_actual t a lo hi) (fun f => Ok (FActual f))
                 | _, true, None => Err ValueError
                 end)
            (fun f => if pa_save_ok a then Ok f else Err TypeError)
      end
  end.

(** The table as an object: build(show_digits) stores the labels (_check_build_parameters, 381-389, may raise), plot changes nothing. *)
Inductive pop := PBuild (bad : option exn) (digits : nat) | PPlot (a : pargs).
Inductive pval := VTable | VFigure (f : pfigure).
Definition pstep (t : ptable) (st : option (list string)) (c : pop) : option (list string) * res pval :=
  match c with
  | PBuild (Some e) _ => (st, Err e)
  | PBuild None d => (Some (pt_text t d), Ok VTable)
  | PPlot a => (st, match plot1 t st a with Ok f => Ok (VFigure f) | Err e => Err e end)
  end.
Fixpoint pexec (t : ptable) (st : option (list string)) (h : list pop) : option (list string) * list (res pval) :=
  match h with [] => (st, []) | c :: r => let (st', v) := pstep t st c in let (st'', l) := pexec t st' r in (st'', v :: l) end.

(** ** The table of a fitted numerical OptimalBinning (binning.py:857-860); [key]: text of a key of the special_codes
    dict; _n_specials (566-569) is [n_special]. *)
Definition binary_ptable (key : Z -> string) (U : Z) (t : table) : ptable :=
  mkPT KBinary false [t_ev t; t_nev t]
    (fun s => [map Some (if (s =? "woe")%string then Metrics.woe (t_nev t) (t_ev t) else if (s =? "event_rate")%string then event_rate (t_nev t) (t_ev t)
               else div_rows (t_nev t) (t_ev t) jeffrey1)])
    ["Non-event"; "Event"] (n_special (t_special t)) false (fun d => row_labels key (t_special t) d U (t_splits t)) (t_splits t)
    (Some (t_min t, t_max t)).
(** The table of a fitted numerical ContinuousOptimalBinning (continuous_binning.py:718-722; columns 1627-1653). *)
Definition continuous_ptable (key : Z -> string) (U : Z) (t : ctable) : ptable :=
  let rows := ct_rows t in
  mkPT KContinuous false [map r_n rows]
    (fun s => [map (if (s =? "mean")%string then ct_row_mean else if (s =? "woe")%string then ct_woe rows else ct_iv rows) rows])
    ["Count"] (n_special (ct_special t)) false (fun d => row_labels key (ct_special t) d U (ct_splits t)) (ct_splits t)
    (Some (ct_min t, ct_max t)).
(** The table of a fitted MulticlassOptimalBinning (columns 1165-1176); [name]: the text of a class. *)
Definition multiclass_ptable (key name : Z -> string) (U : Z) (t : mtable) : ptable :=
  let cols := mt_cols t in
  mkPT KMulticlass false cols
    (fun _ => map (fun c => map (fun k => Some (mb_rate cols k c)) (seq 0 (mt_rows cols))) (seq 0 (List.length cols)))
    (map name (mt_classes t)) (n_special (mt_special t)) false (fun d => row_labels key (mt_special t) d U (mt_splits t)) (mt_splits t) None.
