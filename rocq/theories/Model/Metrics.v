(** Divergence measures, the binary-target binning table and WoE / event-rate transforms, over the real
    numbers (floating point rounding, NaN and infinities are not modelled: totals are assumed positive
    wherever numpy would divide by zero). Counts are integers. *)
From Coq Require Import List ZArith Bool Reals.
From Verif Require Import Model.Arr Model.Core Model.Cat.
Import ListNotations.
Open Scope R_scope.

(** [np.sum] *)
Fixpoint rsum (l : list R) : R := match l with [] => 0 | x :: r => x + rsum r end.

(** scipy.special.xlogy *)
Definition xlogy (x y : R) : R := if Req_EM_T x 0 then 0 else x * ln y.

(** metrics.py:81-104 (one entry) *)
Definition kl1 (x y : R) : R := xlogy x (x / y).
(** metrics.py:107-132 *)
Definition jeffrey1 (x y : R) : R := xlogy (x - y) (x / y).
(** metrics.py:135-157 *)
Definition js1 (x y : R) : R := (1/2) * (kl1 x ((1/2) * (x + y)) + kl1 y ((1/2) * (x + y))).
(** metrics.py:199-224 *)
Definition hellinger1 (x y : R) : R := (1/2) * (sqrt x - sqrt y) ^ 2.
(** metrics.py:227-253 *)
Definition triangular1 (x y : R) : R := (x - y) ^ 2 / (x + y).

(** metrics.py:307-329 *)
Definition hhi (s : list R) : R := rsum (map (fun x => x ^ 2) s).
Definition hhi_norm (s : list R) : R :=
  let h := hhi s in
  if Nat.eqb (length s) 1 then 1
  else let n1 := 1 / INR (length s) in (h - n1) / (1 - n1).

(** metrics.py:334 (decimal literal) and 332-344 *)
Definition q_c : R := 39573882184806863 / 100000000000000000.
Definition score_1 (iv : R) : R := iv * exp (1/2 * (1 - (iv / q_c) ^ 2)) / q_c.
Definition score_2 (pv : list R) : R := fold_right Rmult 1 (map (fun p => 1 - p) pv).
Definition binning_quality_score (iv : R) (pv : list R) (hn : R) : R := score_1 iv * score_2 pv * (1 - hn).

(** metrics.py:353-367 *)
Definition continuous_quality_score (rwoe : R) (pv : list R) (hn : R) : R :=
  (if Req_EM_T rwoe 0 then 0 else Rmax (1 - 1 / rwoe) 0) * score_2 pv * (1 - hn).

(** ** metrics.py:41-78. A row is (event, nonevent); [argsort] is numpy's argsort applied to the rows
    (an oracle: ties in any order). *)
Definition grow := (Z * Z)%type.
Definition ner (r : grow) : R := IZR (snd r) / (IZR (fst r) + IZR (snd r)).
Fixpoint dot_cum (acc : R) (l : list grow) : R :=
  match l with
  | [] => 0
  | (e, n) :: r => IZR e * (IZR n + 2 * acc) + dot_cum (acc + IZR n) r
  end.
Definition gini (argsort : list grow -> list grow) (rows : list grow) : R :=
  let rows := filter (fun r => Z.ltb 0 (fst r + snd r)) rows in
  if Nat.leb (length rows) 1 then 0
  else
    let te := rsum (map (fun r => IZR (fst r)) rows) in
    let tne := rsum (map (fun r => IZR (snd r)) rows) in
    1 - dot_cum 0 (argsort rows) / (te * tne).

(** ** BinningTable.build: binning_statistics.py:515-562 *)
Section Table.
  Variable nev ev : list Z.        (* n_nonevent, n_event *)
  Definition t_nev : R := IZR (zsum nev).
  Definition t_ev : R := IZR (zsum ev).
  Definition n_records : list Z := map2 Z.add ev nev.                                        (* 518 *)
  Definition p_records : list R := map (fun c => IZR c / (t_nev + t_ev)) n_records.          (* 524 *)
  Definition p_event : list R := map (fun c => IZR c / t_ev) ev.                             (* 525 *)
  Definition p_nonevent : list R := map (fun c => IZR c / t_nev) nev.                        (* 526 *)
  Definition t_event_rate : R := t_ev / (t_nev + t_ev).                                      (* 522 *)
  Definition mask : list bool := map2 (fun e n => Z.ltb 0 e && Z.ltb 0 n) ev nev.            (* 528 *)
  (* event_rate[mask] = ..., 0 elsewhere (529, 535) *)
  Definition event_rate : list R :=
    map2 (fun e n => if Z.ltb 0 e && Z.ltb 0 n then IZR e / IZR (e + n) else 0) ev nev.
  (* 530, 536-537 *)
  Definition woe : list R :=
    map2 (fun m r => if (m : bool) then ln (1 / r - 1) + ln (t_ev / t_nev) else 0) mask event_rate.
  (* 543-549 *)
  Definition div_rows (phi : R -> R -> R) : list R :=
    map2 (fun e n => if Z.ltb 0 e && Z.ltb 0 n then phi (IZR e / t_ev) (IZR n / t_nev) else 0) ev nev.
  Definition table_iv : R := rsum (div_rows jeffrey1).
  Definition table_js : R := rsum (div_rows js1).
  Definition table_hellinger : R := rsum (div_rows hellinger1).                              (* 554 *)
  Definition table_triangular : R := rsum (div_rows triangular1).                            (* 555 *)
  (* 558 *)
  Fixpoint rcumsum (acc : R) (l : list R) : list R :=
    match l with [] => [] | x :: r => (acc + x) :: rcumsum (acc + x) r end.
  Definition rmax_list (l : list R) : R :=
    match l with [] => 0 | x :: r => fold_left Rmax r x end.
  Definition ks : R := rmax_list (map2 (fun a b => Rabs (a - b)) (rcumsum 0 p_event) (rcumsum 0 p_nonevent)).
  Definition table_hhi : R := hhi p_records.                                                 (* 561 *)
  Definition table_hhi_norm : R := hhi_norm p_records.                                       (* 562 *)
End Table.

(** ** transformations.py:19-60 *)
Definition er_to_woe (er n_nonevent n_event : R) : R := ln ((1 / er - 1) * n_event / n_nonevent).
Definition woe_to_er (w n_nonevent n_event : R) : R := 1 / (1 + n_nonevent / n_event * exp w).

(** ** transform_binary_target with metric "woe" / "event_rate": transformations.py:270-305.
    [empirical]: "empirical" in (metric_special, metric_missing). *)
Definition kept {A} (empirical : bool) (n_bins : nat) (l : list A) : list A :=
  if empirical then l else firstn n_bins l.                                                  (* 276-279 *)
Definition tr_event_rate (empirical : bool) (n_bins : nat) (nev ev : list Z) : list R :=
  map2 (fun e n => if Z.ltb 0 e && Z.ltb 0 n then IZR e / IZR (e + n) else 0)
       (kept empirical n_bins ev) (kept empirical n_bins nev).                               (* 282-286 *)
Definition tr_woe (empirical : bool) (n_bins : nat) (nev ev : list Z) : list R :=
  map2 (fun e n => if Z.ltb 0 e && Z.ltb 0 n
                   then er_to_woe (IZR e / IZR (e + n)) (t_nev nev) (t_ev ev) else 0)
       (kept empirical n_bins ev) (kept empirical n_bins nev).                               (* 287-288 *)
Inductive bmetric := BWoe | BEventRate.
Definition mean_event_rate (empirical : bool) (n_bins : nat) (nev ev : list Z) : R :=
  t_ev ev / IZR (zsum (kept empirical n_bins (n_records nev ev))).                           (* 292 *)
(** cat_unknown: None, an int or a float argument. The result array gets the dtype of cat_unknown
    ([np.full], lines 305 and 186), so an int argument makes it an integer array and every value
    assigned into it is truncated. *)
Inductive unknown_arg := UNone | UInt (z : Z) | UFloat (r : R).
Definition unknown_value (m : bmetric) (empirical : bool) (n_bins : nat) (nev ev : list Z) (u : unknown_arg) : R :=
  match u with
  | UNone => let mr := mean_event_rate empirical n_bins nev ev in
             match m with BWoe => er_to_woe mr (t_nev nev) (t_ev ev) | BEventRate => mr end
  | UInt z => IZR z
  | UFloat r => r
  end.
(** C cast double -> int64: truncation towards zero *)
Definition rtrunc (x : R) : Z := if Rle_dec 0 x then Int_part x else (- Int_part (- x))%Z.
Definition store (u : unknown_arg) (x : R) : R := match u with UInt _ => IZR (rtrunc x) | _ => x end.
Definition metric_values (m : bmetric) (empirical : bool) (n_bins : nat) (nev ev : list Z) : list R :=
  match m with BWoe => tr_woe empirical n_bins nev ev | BEventRate => tr_event_rate empirical n_bins nev ev end.
Definition is_empirical (a : marg R) : bool := match a with Empirical => true | Const _ _ => false end.

(** transform for a numerical / categorical variable *)
Definition store_res (u : unknown_arg) (r : res R) : res R := match r with Ok x => Ok (store u x) | Err e => Err e end.
Definition transform_binary_num (splits : list Z) (sp : special) (m : bmetric) (ms mm : marg R) (u : unknown_arg)
    (nev ev : list Z) (x : xval) : res R :=
  let e := is_empirical ms || is_empirical mm in
  let nb := S (length splits) in
  store_res u (transform1_num splits sp MValue ms mm (metric_values m e nb nev ev) (unknown_value m e nb nev ev u) x).
Definition transform_binary_cat (bins : list (list Z)) (sp : special) (m : bmetric) (ms mm : marg R) (u : unknown_arg)
    (nev ev : list Z) (x : xval) : res R :=
  let e := is_empirical ms || is_empirical mm in
  let nb := length bins in
  store_res u (transform1_cat bins sp MValue ms mm (metric_values m e nb nev ev) (unknown_value m e nb nev ev u) x).
