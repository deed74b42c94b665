(** Automatic monotonic trend and trend classification: optbinning/binning/auto_monotonic.py, binning.py 944-980 and
    binning_statistics.py 975. Floating-point numbers are exact rationals; a possible nan (0/0) is [None]. *)
From Coq Require Import List ZArith QArith Qabs Bool.
From Verif Require Import Model.Arr Model.CP.
Import ListNotations.
Open Scope Q_scope.

(** np.argmax / np.argmin: first position of the largest / smallest element *)
Fixpoint argbest (better : Q -> Q -> bool) (l : list Q) (i : nat) (best : Q) (pos : nat) : nat :=
  match l with
  | [] => pos
  | a :: r => if better a best then argbest better r (S i) a i else argbest better r (S i) best pos
  end.
Definition Qltb (a b : Q) : bool := negb (Qle_bool b a).
Definition argmax (l : list Q) : nat := match l with [] => 0 | a :: r => argbest (fun x y => Qltb y x) r 1 a 0 end.
Definition argmin (l : list Q) : nat := match l with [] => 0 | a :: r => argbest Qltb r 1 a 0 end.

(** 25: np.sign(x[1:] - x[:-1]); 26: number of positions where consecutive signs differ *)
Definition diffs (x : list Q) : list Q := map2 (fun a b => b - a) x (tl x).
Definition sign (q : Q) : Z := if Qltb 0 q then 1%Z else if Qltb q 0 then (-1)%Z else 0%Z.
Definition n_peaks_valleys (x : list Q) : nat :=
  let s := map sign (diffs x) in count_true (map2 (fun a b => negb (a =? b)%Z) s (tl s)).

(** 29-35 *)
Definition trend_change_heuristic (x : list Q) (peak : bool) : nat := if peak then argmax x else argmin x.

(** 0.5 * abs(det [[x1,x2,x3],[y1,y2,y3],[1,1,1]]) (67-73) *)
Definition triangle_area (x1 y1 x2 y2 x3 y3 : Q) : Q :=
  (1 # 2) * Qabs (x1 * (y2 - y3) - x2 * (y1 - y3) + x3 * (y1 - y2)).
Definition qnat (n : nat) : Q := inject_Z (Z.of_nat n).
(** 38-81: None is nan (all values equal: 0/0) *)
Definition extreme_points_area (x : list Q) : option Q :=
  let n := length x in
  let pmin := argmin x in let pmax := argmax x in
  let ymin := nth pmin x 0 in let ymax := nth pmax x 0 in
  if (3 <=? n)%nat then
    let a1 := triangle_area 0 (nth 0 x 0) (qnat pmin) ymin (qnat pmax) ymax in
    let a2 := triangle_area (qnat pmin) ymin (qnat pmax) ymax (qnat n) (last x 0) in
    let den := (ymax - ymin) * qnat n in
    if Qeq_bool den 0 then None else Some ((a1 + a2) / den)
  else Some 0.

(** 94: sign of the slope of np.polyfit(arange(n), rate, 1): the slope is a positive multiple of sum (2 i - (n-1)) rate_i *)
Fixpoint slope_sum (n : Z) (i : Z) (x : list Q) : Q :=
  match x with [] => 0 | a :: r => inject_Z (2 * i - (n - 1)) * a + slope_sum n (i + 1) r end.
Definition lr_sense (x : list Q) : bool := Qltb 0 (slope_sum (Z.of_nat (length x)) 0 x).

(** 130-153, the entries used by the decisions; [hull] is p_convex_hull (112-128, scipy's ConvexHull: any value) *)
Record auto_data := { p_changes : Q; sense : bool;
  p_min_left : Q; p_min_right : Q; p_max_left : Q; p_max_right : Q; p_area : option Q; p_hull : option Q }.
Definition share (rs : list Z) (total : Z) : Q := inject_Z (zsum rs) / inject_Z total.
(** 84-155 and 158-228: [recs] n_records, [rate] event_rate or mean *)
Definition auto_data_of (recs : list Z) (rate : list Q) (hull : option Q) : auto_data :=
  let total := zsum recs in
  let pmin := argmin rate in let pmax := argmax rate in
  {| p_changes := qnat (n_peaks_valleys rate) / qnat (length recs); sense := lr_sense rate;
     p_min_left := share (firstn pmin recs) total; p_min_right := share (skipn (S pmin) recs) total;
     p_max_left := share (firstn pmax recs) total; p_max_right := share (skipn (S pmax) recs) total;
     p_area := extreme_points_area rate; p_hull := hull |}.
(** 88-89: event_rate = n_event / (n_nonevent + n_event) *)
Definition event_rates (ne ev : list Z) : list Q := map2 (fun a b => inject_Z b / inject_Z (a + b)) ne ev.
Definition prebin_records (ne ev : list Z) : list Z := map2 Z.add ne ev.
(** 162: mean = sums / n_records *)
Definition means (recs sums : list Z) : list Q := map2 (fun n s => inject_Z s / inject_Z n) recs sums.

(** x <= c with x possibly nan *)
Definition nan_le (x : option Q) (c : Q) : bool := match x with Some q => Qle_bool q c | None => false end.
Definition q_le (x c : Q) : bool := Qle_bool x c.

(** 231-288: the decision tree; the result code, then the name (None: falls through) *)
Definition decision_code (d : auto_data) : nat :=
  if nan_le (p_area d) (22145836800336838 # 100000000000000000) then
    if negb (sense d) then
      if nan_le (p_hull d) (48331470787525177 # 100000000000000000) then
        if q_le (p_min_right d) (10740397498011589 # 1000000000000000000) then 1%nat
        else if q_le (p_min_right d) (22145185619592667 # 1000000000000000000) then 3%nat else 1%nat
      else if q_le (p_max_right d) (6426683664321899 # 10000000000000000) then 3%nat else 1%nat
    else 0%nat
  else
    if q_le (p_min_right d) (6137961149215698 # 100000000000000000) then
      if nan_le (p_hull d) (23837491869926453 # 100000000000000000) then 1%nat
      else if q_le (p_max_left d) (10170064494013786 # 100000000000000000) then
             if q_le (p_max_left d) (1817034650593996 # 100000000000000000) then 3%nat else 1%nat
           else 2%nat
    else
      if q_le (p_min_left d) (5336669087409973 # 100000000000000000) then
        if q_le (p_max_right d) (695494469255209 # 10000000000000000) then 0%nat
        else if q_le (p_max_left d) (14705360680818558 # 100000000000000000) then 0%nat else 2%nat
      else if q_le (p_min_left d) (8308950066566467 # 10000000000000000) then 3%nat
           else if q_le (p_max_right d) (1587613895535469 # 10000000000000000) then 3%nat else 2%nat.
Definition decision (d : auto_data) : option trend :=
  match decision_code d with
  | 0%nat => Some TAscending | 1%nat => Some TDescending | 2%nat => Some TPeak | 3%nat => Some TValley | _ => None
  end.
(** 292-331 *)
Definition asc_desc_code (d : auto_data) : nat :=
  if negb (sense d) then
    if nan_le (p_area d) (4890555590391159 # 10000000000000000) then
      if q_le (p_max_right d) (29244758188724518 # 1000000000000000000) then 0%nat else 1%nat
    else if nan_le (p_hull d) (5553120970726013 # 10000000000000000) then 0%nat else 1%nat
  else
    if q_le (p_max_left d) (3698493912816048 # 100000000000000000) then 1%nat
    else if q_le (p_min_left d) (7991077601909637 # 10000000000000000) then
           if nan_le (p_area d) (48206718266010284 # 100000000000000000) then 0%nat
           else if q_le (p_max_left d) (8631451725959778 # 10000000000000000) then 0%nat else 1%nat
         else if q_le (p_changes d) (5277777910232544 # 10000000000000000) then
                if q_le (p_min_left d) (8155287206172943 # 10000000000000000) then 1%nat else 0%nat
              else 1%nat.
Definition asc_desc_decision (d : auto_data) : option trend :=
  match asc_desc_code d with 0%nat => Some TAscending | 1%nat => Some TDescending | _ => None end.

(** the auto modes of the monotonic_trend parameter *)
Inductive auto_mode := Auto | AutoHeuristic | AutoAscDesc.
(** 334-362 *)
Definition auto_monotonic (mode : auto_mode) (recs : list Z) (rate : list Q) (hull : option Q) : option trend :=
  let d := auto_data_of recs rate hull in
  match mode with AutoAscDesc => asc_desc_decision d | _ => decision d end.

(** binning.py 947-974 (numerical dtype): the trend handed to the optimizer; auto_heuristic turns peak and valley into the
    heuristic trends at the largest / smallest event rate *)
Definition optimizer_trend (mode : auto_mode) (ne ev : list Z) (hull : option Q) : option trend :=
  let rate := event_rates ne ev in
  match auto_monotonic mode (prebin_records ne ev) rate hull, mode with
  | Some TPeak, AutoHeuristic => Some (TPeakHeuristic (trend_change_heuristic rate true))
  | Some TValley, AutoHeuristic => Some (TValleyHeuristic (trend_change_heuristic rate false))
  | t, _ => t
  end.
(** binning.py 976-979 (categorical dtype): [m] = Some _ is any monotonic_trend other than None *)
Definition optimizer_trend_cat {A} (m : option A) : trend := match m with None => TNone | Some _ => TAscending end.

(** 365-374: x[1:t+1] - x[:t] >= 0 and x[t+1:] - x[t:-1] <= 0 *)
Definition all_nonneg (l : list Q) : bool := forallb (fun q => Qle_bool 0 q) l.
Definition all_nonpos (l : list Q) : bool := forallb (fun q => Qle_bool q 0) l.
Definition is_peak (x : list Q) : bool :=
  let t := argmax x in (all_nonneg (diffs (firstn (S t) x)) && all_nonpos (diffs (skipn t x)))%bool.
(** 377-386 *)
Definition is_valley (x : list Q) : bool :=
  let t := argmin x in (all_nonpos (diffs (firstn (S t) x)) && all_nonneg (diffs (skipn t x)))%bool.
(** 389-400 *)
Fixpoint is_convex (x : list Q) : bool :=
  match x with
  | a :: ((b :: c :: _) as r) => (Qle_bool 0 (c - 2 * b + a) && is_convex r)%bool
  | _ => true
  end.
(** 403-414 *)
Fixpoint is_concave (x : list Q) : bool :=
  match x with
  | a :: ((b :: c :: _) as r) => (Qle_bool 0 (- c + 2 * b - a) && is_concave r)%bool
  | _ => true
  end.
Inductive trend_name := Undefined | NAscending | NDescending | NPeak | NPeakConcave | NValley | NValleyConvex | NoMonotonic.
(** 417-439 *)
Definition type_of_monotonic_trend (x : list Q) : trend_name :=
  if (length x =? 1)%nat then Undefined
  else if (1 <=? n_peaks_valleys x)%nat then
    if is_peak x then (if is_concave x then NPeakConcave else NPeak)
    else if is_valley x then (if is_convex x then NValleyConvex else NValley)
    else NoMonotonic
  else if all_nonneg (diffs x) then NAscending else NDescending.
(** binning_statistics.py 975: the rates of the table rows (bins, special rows, missing row), without the last two *)
Definition table_trend (rates : list Q) : trend_name := type_of_monotonic_trend (firstn (length rates - 2) rates).
