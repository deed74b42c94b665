(** The p-value requirement of the optimisation and the p-values listed by analysis(), over the real numbers.
    optbinning/binning/model_data.py:19-93, metrics.py:256-304, binning_statistics.py:921-947 and 1976-1999.
    [cdf] and [ppf] stand for scipy.stats.norm.cdf and norm.ppf; the survival function of the chi-square law with one degree
    of freedom is written with [cdf] (the square of a standard normal variable). *)
From Coq Require Import List ZArith Bool Reals.
From Verif Require Import Model.Arr Model.Core Model.Cont Model.ContTable Model.MultiTable.
Import ListNotations.
Open Scope R_scope.

(** model_data.py:20-26 (the same formula is in metrics.py:257-263); a row is (n_nonevent, n_event) *)
Definition z_statistic (r1 r2 : Z * Z) : R :=
  let e1 := IZR (snd r1) in let ne1 := IZR (fst r1) in let e2 := IZR (snd r2) in let ne2 := IZR (fst r2) in
  let n1 := e1 + ne1 in let n2 := e2 + ne2 in
  let p1 := e1 / n1 in let p2 := e2 / n2 in
  let p := (e1 + e2) / (n1 + n2) in
  (p1 - p2) / sqrt (p * (1 - p) * (1 / n1 + 1 / n2)).
(** model_data.py:32, [zscore = norm.ppf(1 - max_pvalue / 2)]; None stands for +inf (norm.ppf(1)) *)
Definition zscore_of (ppf : R -> R) (max_pvalue : R) : option R :=
  if Req_EM_T max_pvalue 0 then None else Some (ppf (1 - max_pvalue / 2)).
(** model_data.py:27: [abs(z) < zscore] *)
Definition proportions_bad (ppf : R -> R) (max_pvalue : R) (r1 r2 : Z * Z) : bool :=
  match zscore_of ppf max_pvalue with
  | None => true
  | Some zs => if Rlt_dec (Rabs (z_statistic r1 r2)) zs then true else false
  end.
(** metrics.py:271-274: p-value of chi2_contingency on a two-by-two table *)
Definition chi2_sf1 (cdf : R -> R) (t : R) : R := 2 * (1 - cdf (sqrt t)).
Definition chi2_pvalue (cdf : R -> R) (obs : list (list Z)) : res R :=
  match chi2_contingency obs with Err e => Err e | Ok t => Ok (chi2_sf1 cdf t) end.
(** metrics.py:275-277, scipy.stats.fisher_exact(obs): the two-sided p-value of a two-by-two table [[a, b], [c, d]], total
    probability of the tables with the same margins that are not more probable than [obs] (scipy accepts a relative excess of
    1e-14, not modelled; p = 1 when a margin is zero). *)
Fixpoint binom (n k : nat) : Z :=
  match n, k with
  | _, O => 1
  | O, S _ => 0
  | S n', S k' => binom n' k' + binom n' k
  end%Z.
Definition fisher_pvalue (obs : list (list Z)) : R :=
  match obs with
  | [[a; b]; [c; d]] =>
      let n1 := Z.to_nat (a + b) in let n2 := Z.to_nat (c + d) in let n := Z.to_nat (a + c) in
      if ((a + b =? 0) || (c + d =? 0) || (a + c =? 0) || (b + d =? 0))%Z then 1 else
      let w k := (binom n1 k * binom n2 (n - k))%Z in
      let support := filter (fun k => (n - k <=? n2)%nat) (seq 0 (S (min n1 n))) in
      IZR (zsum (map w (filter (fun k => (w k <=? w (Z.to_nat a))%Z) support))) / IZR (binom (n1 + n2) n)
  | _ => 1
  end.
(** binning_statistics.py:936-947: the p-value column of the binary analysis; [test] is frequentist_pvalue *)
Fixpoint collect {A} (l : list (res A)) : res (list A) :=
  match l with
  | [] => Ok []
  | Err e :: _ => Err e
  | Ok a :: r => match collect r with Err e => Err e | Ok s => Ok (a :: s) end
  end.
Definition bt_pvalues (test : list (list Z) -> res R) (n_specials n_others : nat) (nev ev : list Z) : res (list R) :=
  collect (map (fun i => test (bt_pair n_specials n_others nev ev i)) (seq 0 (bt_metric n_specials n_others nev - 1))).
(** metrics.py:296-304: the mean of the distribution function of bin A at the quantiles of bin B; [fa] is
    [betainc(aA, bA, .)], [qb] is [beta(aB, bB).ppf], [r] the shuffled 1..n_samples *)
Definition bayesian_probability (fa qb : R -> R) (r : list nat) : R * R :=
  let v := map (fun k => (INR k - 1 / 2) / INR (length r)) r in
  let p := fold_right Rplus 0 (map (fun x => fa (qb x)) v) / INR (length r) in
  (p, 1 - p).

(** model_data.py:263-264 and 287-289: mean and standard deviation of a candidate bin; binning_statistics.py:288-289 *)
Definition cand_mean (m : Z * Z * Z) : R := let '(n, s, ss) := m in IZR s / IZR n.
Definition cand_std (m : Z * Z * Z) : R := let '(n, s, ss) := m in sqrt (IZR ss / IZR n - (IZR s / IZR n) ^ 2).
Definition cand_n (m : Z * Z * Z) : Z := let '(n, s, ss) := m in n.
(** model_data.py:75-76 and 89-90: [ttest_ind_from_stats(u, s, r, u2, s2, r2, False)[1] > max_pvalue]; [welch] is the p-value,
    None is NaN (for which the comparison is false) *)
Definition welch_bad (welch : R * R * Z -> R * R * Z -> option R) (max_pvalue : R) (m1 m2 : Z * Z * Z) : bool :=
  match welch (cand_mean m1, cand_std m1, cand_n m1) (cand_mean m2, cand_std m2, cand_n m2) with
  | None => false
  | Some p => if Rlt_dec max_pvalue p then true else false
  end.
