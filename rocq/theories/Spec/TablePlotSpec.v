(** Vocabulary for C89: what the figure of a one-dimensional binning table is expected to show. *)
From Coq Require Import List ZArith QArith Bool Arith String Reals.
From Verif Require Import Model.Arr Model.Core Model.Metrics Model.Label Model.TablePlot.
Import ListNotations.
Open Scope list_scope.
Open Scope nat_scope.

(** A table of nb rows for bins (the last one is the bin "others" if there is one), then one row per special code (or one for all of
    them), then the row of the missing values; every column has that many rows, and there is a metric column and a series. *)
Definition rows_of (t : ptable) (nb : nat) : nat := nb + pt_specials t + 1.
Definition well_formed (t : ptable) (nb : nat) : Prop :=
  (if pt_others t then 1 else 0) < nb /\ pt_series t <> [] /\
  (forall s, In s (pt_series t) -> List.length s = rows_of t nb) /\
  (forall name, pt_metric t name <> []) /\
  (forall name m, In m (pt_metric t name) -> List.length m = rows_of t nb) /\
  (forall d, List.length (pt_text t d) = rows_of t nb) /\
  (pt_kind t = KMulticlass -> List.length (pt_series t) <= 100).

(** The rows to show, from left to right: the bins, then the special and the missing rows if they are asked for. *)
Definition shown (t : ptable) (nb : nat) (a : pargs) : list nat :=
  seq 0 nb ++ (if pa_special a then seq nb (pt_specials t) else []) ++ (if pa_missing a then [nb + pt_specials t] else []).
(** The count of series j in a row, and the counts of the series drawn below it. *)
Definition count_in (t : ptable) (j row : nat) : Z := nth row (nth j (pt_series t) []) 0%Z.
Definition below (t : ptable) (j row : nat) : Z := fold_right Z.add 0%Z (map (fun i => count_in t i row) (seq 0 j)).
(** The bars: at position p the stacked counts of the p-th row to show. *)
Definition bars_show (t : ptable) (nb : nat) (a : pargs) (f : binfig) : Prop :=
  bf_bars f = map (fun j => map (fun row => (below t j row, count_in t j row)) (shown t nb a)) (seq 0 (List.length (pt_series t))).
(** The markers (vertices of the line and single points) of metric j: at position p the value of the p-th row to show, and no other. *)
Definition markers_show (t : ptable) (nb : nat) (a : pargs) (f : binfig) : Prop :=
  forall j m, nth_error (pt_metric t (pa_metric a)) j = Some m -> forall p v,
    In (p, v) (nth j (bf_lines f) [] ++ nth j (bf_points f) []) <-> exists row, nth_error (shown t nb a) p = Some row /\ nth_error m row = Some v.
(** The labels under the positions are those of the rows shown ([text]: the column Bin; long labels of categories are cut). *)
Definition label_of (t : ptable) (text : list string) (row : nat) : string :=
  let s := nth row text EmptyString in if pt_categorical t then short_label s else s.
Definition labels_show (t : ptable) (nb : nat) (a : pargs) (text : list string) (f : binfig) : Prop :=
  bf_ticks f = (if pa_labels a then Some (map (label_of t text) (shown t nb a)) else None).
(** The line joins the bins other than "others"; hatched and faded bars are those of the special, missing and "others" rows. *)
Definition styles_show (t : ptable) (nb : nat) (a : pargs) (f : binfig) : Prop :=
  (forall j m, nth_error (pt_metric t (pa_metric a)) j = Some m ->
     nth j (bf_lines f) [] = map (fun row => (row, nth row m None)) (seq 0 (if pt_others t then nb - 1 else nb))) /\
  (forall p, In p (bf_special f) <-> exists row, nth_error (shown t nb a) p = Some row /\ nb <= row < nb + pt_specials t) /\
  (forall p, In p (bf_missing f) <-> nth_error (shown t nb a) p = Some (nb + pt_specials t)) /\
  bf_faded f = (if pt_others t then [nb - 1] else []) /\
  bf_legend f = pt_names t ++ (if pa_special a then ["Bin special"%string] else []) ++ (if pa_missing a then ["Bin missing"%string] else []).

(** The arguments plot() is documented to accept; [actual_request]: style="actual", for a numerical variable with known range. *)
Definition actual_request (t : ptable) (a : pargs) : Prop := pt_kind t <> KMulticlass /\ pa_style a = "actual"%string.
Definition accepted (t : ptable) (a : pargs) : Prop :=
  pa_flags_ok a = true /\ pa_labels_ok a = true /\ pa_figsize_ok a = true /\ pa_save_ok a = true /\
  match pt_kind t with
  | KBinary => In (pa_metric a) ["woe"; "event_rate"; "iv"]%string
  | KContinuous => In (pa_metric a) ["mean"; "woe"; "iv"]%string
  | KMulticlass => True
  end /\
  (pt_kind t <> KMulticlass -> In (pa_style a) ["bin"; "actual"]%string) /\
  (actual_request t a -> pa_labels a = false /\ pt_categorical t = false /\ pt_range t <> None).

(** style="actual": bar i spans from the previous split (min_x for the first bin) to the next one (max_x for the last bin). *)
Definition left_edge (t : ptable) (lo : Z) (i : nat) : Z := match i with O => lo | S k => nth k (pt_splits t) 0%Z end.
Definition right_edge (t : ptable) (hi : Z) (i : nat) : Z := if i <? List.length (pt_splits t) then nth i (pt_splits t) 0%Z else hi.
Definition actual_shows (t : ptable) (nb : nat) (a : pargs) (lo hi : Z) (f : actfig) : Prop :=
  let m := hd [] (pt_metric t (pa_metric a)) in
  af_bars f = map (fun j => map (fun i => (left_edge t lo i, (right_edge t hi i - left_edge t lo i)%Z, below t j i, count_in t j i)) (seq 0 nb)) (seq 0 (List.length (pt_series t))) /\
  af_segments f = map (fun i => (left_edge t lo i, right_edge t hi i, nth i m None)) (seq 0 nb) /\
  List.length (af_points f) = nb /\
  (forall i, i < nb -> exists q, nth_error (af_points f) i = Some (q, nth i m None) /\ (q == inject_Z (left_edge t lo i + right_edge t hi i) / 2)%Q) /\
  af_vlines f = pt_splits t.

(** The labels that a call to plot uses: those of the last build() that succeeded. *)
Definition last_build (h : list pop) (d : option nat) : Prop :=
  match d with
  | None => forall d', ~ In (PBuild None d') h
  | Some d' => exists h1 h2, h = h1 ++ PBuild None d' :: h2 /\ forall d'', ~ In (PBuild None d'') h2
  end.

(** What the line and the markers of the table of a binary target show in row k: event rate, WoE and IV by their formulas when the row has
    events (series 0) and non-events (series 1), and 0 otherwise *)
Definition binary_values (p : ptable) (k : nat) : Prop :=
  let e := count_in p 0 k in let n := count_in p 1 k in
  let x := (IZR e / IZR (zsum (nth 0 (pt_series p) [])))%R in let y := (IZR n / IZR (zsum (nth 1 (pt_series p) [])))%R in
  let m := fun name => nth k (hd [] (pt_metric p name)) None in
  ((0 < e)%Z -> (0 < n)%Z -> m "event_rate"%string = Some (IZR e / IZR (e + n))%R /\ m "woe"%string = Some (ln (y / x)) /\ m "iv"%string = Some ((x - y) * ln (x / y))%R) /\
  (~ ((0 < e)%Z /\ (0 < n)%Z) -> m "event_rate"%string = Some 0%R /\ m "woe"%string = Some 0%R /\ m "iv"%string = Some 0%R).
