(** Scorecard: optbinning/scorecard/scorecard.py and rounding.py. Real arithmetic: no floating point rounding.
    Variables are fitted binnings, numerical or categorical, with a binary (WoE) or continuous (mean) target. *)
From Coq Require Import List ZArith Bool Reals.
From Verif Require Import Model.Arr Model.Core Model.Cat Model.Metrics.
Import ListNotations.
Open Scope R_scope.

(** The fitted bins of a variable: splits, or lists of categories. *)
Inductive sbins := Num (splits : list Z) | Catg (bins : list (list Z)).
(** One selected variable: its bins and special codes, the WoE (or Mean) column of its binning table (bins, special
    rows, missing row), the value given to unknown categories when transforming with that metric
    (transformations.py:289-297, 391-394; a parameter here, computed in the categorical model) and the estimator's coefficient
    (scorecard.py:593-605). *)
Record svar := mkV { sv_bins : sbins; sv_sp : special; sv_metric : list R; sv_unknown : R; sv_coef : R }.
(** transform(metric="indices", metric_special="empirical", metric_missing="empirical"), cat_unknown=None *)
Definition sv_index (v : svar) (x : xval) : res Z :=
  match sv_bins v with
  | Num splits => transform_indices splits (sv_sp v) Empirical Empirical x
  | Catg bins => transform_indices_cat bins (sv_sp v) Empirical Empirical (-1) x
  end.
(** transform with the metric the scorecard was fitted with *)
Definition sv_value (ms mm : marg R) (v : svar) (x : xval) : res R :=
  match sv_bins v with
  | Num splits => transform1_num splits (sv_sp v) MValue ms mm (sv_metric v) (sv_unknown v) x
  | Catg bins => transform1_cat bins (sv_sp v) MValue ms mm (sv_metric v) (sv_unknown v) x
  end.

(** scorecard.py:605-617: [binning_table[metric] * c], then the special rows nt-1-n_specials .. nt-2 and the missing row
    nt-1 are overwritten unless "empirical". *)
Definition raw_row (ms mm : marg R) (c : R) (nt nsp : nat) (i : nat) (w : R) : R :=
  let p := w * c in
  let p := match ms with
           | Const _ a => if (Nat.leb nt (i + 1 + nsp) && Nat.leb (i + 2) nt)%bool then a * c else p
           | Empirical => p
           end in
  match mm with Const _ a => if Nat.eqb i (nt - 1) then a * c else p | Empirical => p end.
Definition raw_points (ms mm : marg R) (v : svar) : list R :=
  let nt := length (sv_metric v) in
  map2 (raw_row ms mm (sv_coef v) nt (n_special (sv_sp v))) (seq 0 nt) (sv_metric v).

Inductive scaling := NoScaling | PdoOdds (pdo odds points : R) | MinMax (a b : R).

(** numpy min / max of a non-empty array *)
Definition lmin (l : list R) : R := match l with [] => 0 | x :: r => fold_right Rmin x r end.
Definition lmax (l : list R) : R := match l with [] => 0 | x :: r => fold_right Rmax x r end.
Definition mapt (f : R -> R) (t : list (list R)) : list (list R) := map (map f) t.

(** scorecard.py:121-156. [t]: the points of each variable. *)
Definition scale (s : scaling) (reverse : bool) (intercept : R) (t : list (list R)) : list (list R) :=
  let n := INR (length t) in
  let sense := if reverse then -1 else 1 in
  match s with
  | NoScaling => t
  | PdoOdds pdo odds pts =>
      let factor := pdo / ln 2 in
      let offset := pts - factor * ln odds in
      mapt (fun p => - (sense * p + intercept / n) * factor + offset / n) t
  | MinMax a b =>
      let smin := intercept + rsum (map lmin t) in
      let smax := intercept + rsum (map lmax t) in
      let slope := sense * (a - b) / (smax - smin) in
      let shift := if reverse then a - slope * smin else b - slope * smin in
      let base := shift + slope * intercept in
      mapt (fun p => base / n + slope * p) t
  end.

(** scorecard.py:159-176 *)
Definition intercept_based (t : list (list R)) : list (list R) * R :=
  (map (fun l => map (fun p => p - lmin l) l) t, rsum (map lmin t)).

(** np.rint: nearest integer, ties to even *)
Definition rint (x : R) : Z :=
  let f := Int_part x in
  if Rlt_dec (x - IZR f) (1 / 2) then f
  else if Rlt_dec (1 / 2) (x - IZR f) then (f + 1)%Z
  else if Z.even f then f else (f + 1)%Z.
Definition rintR (x : R) : R := IZR (rint x).

(** rounding.py:24-82: a feasible point of the MIP (integer variables between real bounds; tp - tm = deviation can
    always be completed, so it is left out). *)
Definition mip_feasible (t : list (list R)) (p : list (list Z)) (minb maxb : list Z) : Prop :=
  let min_p := lmin (map lmin t) in
  let max_p := lmax (map lmax t) in
  let inside (z : Z) := min_p <= IZR z <= max_p in
  length p = length t /\ length minb = length t /\ length maxb = length t /\
  Forall2 (fun l r => length l = length r) p t /\
  Forall (Forall inside) p /\ Forall inside minb /\ Forall inside maxb /\
  Forall2 (fun m l => Forall (fun z => (m <= z)%Z) l) minb p /\
  Forall2 (fun m l => Forall (fun z => (z <= m)%Z) l) maxb p /\
  zsum minb = rint (rsum (map lmin t)) /\ zsum maxb = rint (rsum (map lmax t)).
(** rounding.py:61-63 *)
Definition mip_cost (t : list (list R)) (p : list (list Z)) : R :=
  rsum (map2 (fun l z => rsum (map2 (fun a b => Rabs (a - IZR b)) l z)) t p).

(** scorecard.py:622-663. [mip]: the answer of the MIP solver, if any. [i0]: the value of [intercept_] before the call
    (0 in a new object, scorecard.py:252). Result: the points of each variable and [intercept_]. *)
Definition finish (s : scaling) (reverse ib rounding : bool) (mip : list (list R) -> option (list (list Z))) (i0 : R)
    (intercept : R) (t : list (list R)) : list (list R) * R :=
  let t := scale s reverse intercept t in
  let '(t, i) := if ib then intercept_based t else (t, i0) in
  if rounding then
    let r := match s with
             | MinMax _ _ => match mip t with Some p => map (map IZR) p | None => mapt rintR t end
             | _ => mapt rintR t
             end in
    (r, if ib then rintR i else i)
  else (t, i).

(** scorecard.py:591-663 *)
Definition fit_scorecard (s : scaling) (reverse ib rounding : bool) (mip : list (list R) -> option (list (list Z))) (i0 : R)
    (ms mm : marg R) (intercept : R) (vars : list svar) : list (list R) * R :=
  finish s reverse ib rounding mip i0 intercept (map (raw_points ms mm) vars).

(** scorecard.py:396-421: [points[X_t[variable]]], numpy indexing (negative indices count from the end). *)
Definition np_get (l : list R) (i : Z) : res R :=
  let j := if (i <? 0)%Z then (i + Z.of_nat (length l))%Z else i in
  if (j <? 0)%Z then Err IndexError
  else match nth_error l (Z.to_nat j) with Some v => Ok v | None => Err IndexError end.
Fixpoint score_sum (vars : list svar) (t : list (list R)) (xs : list xval) : res R :=
  match vars, t, xs with
  | [], _, _ => Ok 0
  | v :: vr, p :: pr, x :: xr =>
      rbind (sv_index v x) (fun i =>
      rbind (np_get p i) (fun a => rbind (score_sum vr pr xr) (fun b => Ok (a + b))))
  | _, _, _ => Err OtherError
  end.
Definition score (fs : list (list R) * R) (vars : list svar) (xs : list xval) : res R :=
  rbind (score_sum vars (fst fs) xs) (fun s => Ok (s + snd fs)).

(** The estimator's linear predictor (decision_function, scorecard.py:375-394): coefficients times the transformed
    values, with the metric_special / metric_missing given to fit. *)
Fixpoint linear_sum (ms mm : marg R) (vars : list svar) (xs : list xval) : res R :=
  match vars, xs with
  | [], _ => Ok 0
  | v :: vr, x :: xr =>
      rbind (sv_value ms mm v x) (fun w =>
      rbind (linear_sum ms mm vr xr) (fun b => Ok (sv_coef v * w + b)))
  | _, _ => Err OtherError
  end.
