(** The piecewise binning objects (OptimalPWBinning, ContinuousOptimalPWBinning) as a state machine: fit, fit_transform,
    transform, splits, status, binning_table and the estimator parameter, in any order, any number of times, succeeding or
    failing. optbinning/binning/piecewise/{base,binning,continuous_binning,binning_information}.py. *)
From Coq Require Import List ZArith Reals Bool Arith String Ascii DecimalString.
From Verif Require Import Model.Arr Model.Core Model.CP Model.Metrics Model.Cont Model.Piecewise.
From Verif Require Model.Lifecycle.
Import ListNotations.
Open Scope string_scope.
Open Scope Z_scope.

(** ** retrieve_status: binning_information.py:69-103. Python [a in b] on strings. *)
Fixpoint starts (p s : string) : bool :=
  match p, s with
  | EmptyString, _ => true
  | String a p', String b s' => Ascii.eqb a b && starts p' s'
  | _, EmptyString => false
  end.
Fixpoint contains (p s : string) : bool :=
  starts p s || match s with EmptyString => false | String _ s' => contains p s' end.
(** the status of the regression: one string, or one per bin (ropwr) *)
Inductive rstatus := OneProblem (s : string) | PerBin (l : list string).
Inductive verdict := Optimal | Feasible | Unbounded | Unknown.
Definition verdict_of (s : string) : verdict :=                          (* 75-81, 98-103 *)
  if contains "optimal" s then Optimal else if contains "feasible" s then Feasible
  else if contains "unbounded" s then Unbounded else Unknown.
Definition verdict_eqb (a b : verdict) : bool :=
  match a, b with Optimal, Optimal | Feasible, Feasible | Unbounded, Unbounded | Unknown, Unknown => true | _, _ => false end.
Definition dec (n : nat) : string := NilZero.string_of_uint (Nat.to_uint n).
Definition part (label : string) (k n : nat) : string :=                 (* 89-95 *)
  if (0 <? k)%nat then label ++ " (" ++ dec k ++ "/" ++ dec n ++ ")" else "".
Definition retrieve_status (st : rstatus) : option string :=
  match st with
  | OneProblem s =>
      match verdict_of s with
      | Optimal => Some "OPTIMAL" | Feasible => Some "FEASIBLE" | Unbounded => Some "UNBOUNDED" | Unknown => None
      end
  | PerBin l =>
      let count v := List.length (filter (fun s => verdict_eqb v (verdict_of s)) l) in
      let n := List.length l in
      if (count Optimal =? n)%nat then Some "OPTIMAL"
      else if (count Feasible =? n)%nat then Some "FEASIBLE"
      else if (count Unbounded =? n)%nat then Some "UNBOUNDED"
      else Some (part "OPTIMAL" (count Optimal) n ++ part "FEASIBLE" (count Feasible) n ++ part "UNBOUNDED" (count Unbounded) n)
  end.

(** ** The objects *)
Inductive pwkind := PWBinary | PWContinuous.
(** What a fitted inner OptimalBinning / ContinuousOptimalBinning answers: its split points and the rows of its bins
    (build(add_totals=False) without the last two rows): pairs (Non-event, Event) for the binary target. *)
Inductive pwrows := BRows (l : list (Z * Z)) | CRows (l : list trow).
Record inner := mkIn { in_splits : list Z; in_rows : pwrows }.
(** What post-processing computes from the records set aside: one entry per special row, and the missing row. *)
Inductive aside := ABin (sp : list (Z * Z)) (miss : Z * Z) (t_nev t_ev : Z) | ACont (sp : list trow) (miss : trow).
(** The arguments of the binning table (binning.py:419-421, continuous_binning.py:396-399). *)
Record pwtable := mkPT { pt_splits : list Z; pt_coef : list (list R); pt_rows : pwrows; pt_lb : option R; pt_ub : option R;
                         pt_min : Z; pt_max : Z; pt_metrics : list R }.

(** A call's data: the records, and whether check_input=True makes the pre-processing raise. *)
Record pdata := mkPD { pd_recs : list (xval * option Z); pd_bad : bool }.
Definition to_krec (r : xval * option Z) : krec := {| k_x := fst r; k_y := snd r; k_w := 1 |}.
Definition recs (d : pdata) : list krec := map to_krec (pd_recs d).

(** Constructor parameters that no method changes and the oracles, deterministic functions that may raise:
    [pe_valid]: _check_parameters passes. [pe_predict]: the estimator's fit and predict_proba on the clean data (binary).
    [pe_inner]: a new inner binning object fitted on the clean data (base.py:366-410). [pe_regress]: RobustPWRegression on
    clean x, prediction (the clean target for the continuous target), split points, lb, ub (base.py:424-470).
    [pe_metrics]: the performance metrics (metrics.py). *)
Record pwenv := mkPE {
  pe_kind : pwkind; pe_valid : bool; pe_special : special; pe_val : Z -> R;
  pe_predict : Z -> list (Z * Z) -> res (list R);
  pe_inner : list (Z * Z) -> res inner;
  pe_regress : list (Z * Z) -> list R -> list Z -> option R -> option R -> res (rstatus * list (list R));
  pe_metrics : list (Z * Z) -> list Z -> list (list R) -> aside -> option R -> option R -> res (list R) }.

(** The mutable attributes. [po_est]: the constructor parameter estimator (None until the first fit, then 0 stands for
    LogisticRegression()). [po_optb]: _optb: None, or Some None when the inner object is not fitted. *)
Record pwobj := mkPO {
  po_est : option Z;
  po_optb : option (option inner);
  po_c : option (list (list R));
  po_status : option string;
  po_aside : option aside;
  po_table : option pwtable;
  po_fitted : bool }.
Definition pnew (est : option Z) : pwobj := mkPO est None None None None None false.

Definition clean_pairs (e : pwenv) (d : pdata) : list (Z * Z) :=
  map (fun r => (num (k_x r), match k_y r with Some y => y | None => 0 end)) (filter (k_clean (pe_special e)) (recs d)).

(** binning_statistics.py:105-131 (weights 1): y == 0 is a non-event, everything else (NaN included) an event *)
Definition pw_counts (l : list krec) : Z * Z :=
  let zero r := match k_y r with Some y => y =? 0 | None => false end in
  (Z.of_nat (List.length (filter zero l)), Z.of_nat (List.length (filter (fun r => negb (zero r)) l))).
(** binning_statistics.py:133-148 *)
Definition pw_special_counts (sp : special) (l : list krec) : list (Z * Z) :=
  match sp with
  | SpDict dd => map (fun kv => pw_counts (filter (fun r => isin (snd kv) (k_x r)) l)) dd
  | _ => [pw_counts l]
  end.

(** binning.py:383-403 / continuous_binning.py:344-356. The three attributes of the missing row that the continuous class
    writes only when there are missing records are reset to None by every fit (base.py:474-476): [fresh]. *)
Definition pw_aside (e : pwenv) (d : pdata) (i : inner) : res (aside * pwrows) :=
  let special := filter (k_special (pe_special e)) (recs d) in
  let missing := filter k_missing (recs d) in
  match pe_kind e, in_rows i with
  | PWBinary, BRows l =>
      let s := pw_special_counts (pe_special e) special in let m := pw_counts missing in
      let rows := app l (app s [m]) in
      Ok (ABin s m (zsum (map fst rows)) (zsum (map snd rows)), BRows rows)
  | PWContinuous, CRows l =>
      rbind (special_rows (pe_special e) special) (fun s =>
      let m := missing_row fresh missing in
      Ok (ACont s m, CRows (app l (app s [m]))))
  | _, _ => Err OtherError
  end.

(** base.py:286 and binning.py:305-440, continuous_binning.py:290-418 *)
Definition pw_post (e : pwenv) (d : pdata) (o : pwobj) (i : inner) (c : list (list R)) (lb ub : option R)
  : pwobj * res unit :=
  match pw_aside e d i with
  | Err k => (o, Err k)
  | Ok (a, rows) =>
      let o := mkPO (po_est o) (po_optb o) (po_c o) (po_status o) (Some a) (po_table o) (po_fitted o) in
      (* the binary metrics and the binary table do not get the bounds *)
      let lb' := match pe_kind e with PWBinary => None | PWContinuous => lb end in
      let ub' := match pe_kind e with PWBinary => None | PWContinuous => ub end in
      match pe_metrics e (clean_pairs e d) (in_splits i) c a lb' ub' with
      | Err k => (o, Err k)
      | Ok m =>
          match map fst (clean_pairs e d) with
          | [] => (o, Err ValueError)                                     (* x_clean.min() *)
          | xs => (mkPO (po_est o) (po_optb o) (po_c o) (po_status o) (po_aside o)
                        (Some (mkPT (in_splits i) c rows lb' ub' (Lifecycle.zmin xs) (Lifecycle.zmax xs) m)) true, Ok tt)
          end
      end
  end.
(** base.py:350-482 *)
Definition pw_fit_binning (e : pwenv) (d : pdata) (o : pwobj) (pred : list R) (lb ub : option R) : pwobj * res unit :=
  match pe_inner e (clean_pairs e d) with
  | Err k => (mkPO (po_est o) (Some None) (po_c o) (po_status o) (po_aside o) (po_table o) (po_fitted o), Err k)
  | Ok i =>
      let o := mkPO (po_est o) (Some (Some i)) (po_c o) (po_status o) (po_aside o) (po_table o) (po_fitted o) in
      match pe_regress e (clean_pairs e d) pred (in_splits i) lb ub with
      | Err k => (o, Err k)
      | Ok (st, c) =>
          pw_post e d (mkPO (po_est o) (po_optb o) (Some c) (retrieve_status st) (po_aside o) (po_table o) (po_fitted o))
                  i c lb ub
      end
  end.
Definition pwl_fit (e : pwenv) (d : pdata) (lb ub : option R) (check : bool) (o : pwobj) : pwobj * res unit :=
  if negb (pe_valid e) then (o, Err ValueError) else
  if pd_bad d && check then (o, Err ValueError) else
  match pe_kind e with
  | PWBinary =>
      let est := match po_est o with None => 0 | Some s => s end in       (* binning.py:356-357 *)
      let o := mkPO (Some est) (po_optb o) (po_c o) (po_status o) (po_aside o) (po_table o) (po_fitted o) in
      match pe_predict e est (clean_pairs e d) with
      | Err k => (o, Err k)
      | Ok p => pw_fit_binning e d o p lb ub
      end
  | PWContinuous => pw_fit_binning e d o (map (fun xy => IZR (snd xy)) (clean_pairs e d)) lb ub
  end.

(** ** transform: binning.py:258-303, continuous_binning.py:250-288 (with C45, C58's Model/Piecewise.v). [None] as metric is
    an unknown string; c[i, :] (transformations.py:29) raises when _c has fewer rows than there are bins. *)
Definition row_mean (r : trow) : fval :=
  if 0 <? r_n r then match r_sum r with Some s => Piecewise.Fin (IZR s / IZR (r_n r)) | None => Piecewise.NaN end
  else Piecewise.Fin 0%R.
Definition pwl_transform (e : pwenv) (o : pwobj) (xs : list xval) (bad : bool) (m : option pwmetric) (ms mm : marg R)
    (lb ub : option R) (check : bool) : res (list fval) :=
  if negb (po_fitted o) then Err NotFitted else
  match po_optb o with
  | None => Err OtherError
  | Some None => Err NotFitted                                             (* self._optb.splits *)
  | Some (Some i) =>
      match po_c o, po_aside o with
      | Some c, Some a =>
          let checked (r : res (list fval)) :=
            if bad && check then Err ValueError
            else if (List.length c <? S (List.length (in_splits i)))%nat then Err IndexError else r in
          match a, m with
          | ABin _ _ _ _, None => Err ValueError
          | ABin s miss tn te, Some m' =>
              checked (transform_binary_target (pe_val e) (in_splits i) xs c lb ub tn te
                 (map fst s) (map snd s) (fst miss) (snd miss) (pe_special e) m' ms mm)
          | ACont s miss, _ =>
              checked (Ok (map (pw_apply (pe_val e) (in_splits i) c lb ub (pe_special e) ms mm (map row_mean s) (row_mean miss)) xs))
          end
      | _, _ => Err OtherError
      end
  end.

(** ** Histories *)
Inductive pop :=
| PFit (d : pdata) (lb ub : option R) (check : bool)
| PFitTransform (d : pdata) (m : option pwmetric) (ms mm : marg R) (lb ub : option R) (check : bool)
| PTransform (xs : list xval) (bad : bool) (m : option pwmetric) (ms mm : marg R) (lb ub : option R) (check : bool)
| PSplits | PStatus | PTable | PEstimator.
Inductive pval := PVNone | PVValues (l : list fval) | PVSplits (s : list Z) | PVStatus (s : option string)
| PVTable (t : option pwtable) | PVEstimator (est : option Z).
Definition p_unit (r : res unit) : res pval := match r with Ok _ => Ok PVNone | Err k => Err k end.
Definition p_values (r : res (list fval)) : res pval := match r with Ok l => Ok (PVValues l) | Err k => Err k end.

(** What fit_transform passes on as lb, ub and check_input of fit: binning.py:254-256 passes its own; continuous_binning.py
    247 calls self.fit(x, y, check_input), so check_input (False = 0, True = 1) arrives as lb. *)
Definition ft_args (k : pwkind) (lb ub : option R) (check : bool) : option R * option R * bool :=
  match k with
  | PWBinary => (lb, ub, check)
  | PWContinuous => (Some (if check then 1%R else 0%R), None, false)
  end.

Definition pstep (e : pwenv) (o : pwobj) (c : pop) : pwobj * res pval :=
  match c with
  | PFit d lb ub check => let (o', r) := pwl_fit e d lb ub check o in (o', p_unit r)
  | PFitTransform d m ms mm lb ub check =>
      let '(l, u, ch) := ft_args (pe_kind e) lb ub check in
      let (o', r) := pwl_fit e d l u ch o in
      (o', match r with
           | Err k => Err k
           | Ok _ => p_values (pwl_transform e o' (map fst (pd_recs d)) (pd_bad d) m ms mm lb ub check)
           end)
  | PTransform xs bad m ms mm lb ub check => (o, p_values (pwl_transform e o xs bad m ms mm lb ub check))
  | PSplits => (o, if negb (po_fitted o) then Err NotFitted else             (* base.py:502-512 *)
                   match po_optb o with Some (Some i) => Ok (PVSplits (in_splits i)) | Some None => Err NotFitted
                                   | None => Err OtherError end)
  | PStatus => (o, if negb (po_fitted o) then Err NotFitted else Ok (PVStatus (po_status o)))
  | PTable => (o, if negb (po_fitted o) then Err NotFitted else Ok (PVTable (po_table o)))
  | PEstimator => (o, Ok (PVEstimator (po_est o)))
  end.
Fixpoint pexec (e : pwenv) (o : pwobj) (h : list pop) : pwobj * list (res pval) :=
  match h with
  | [] => (o, [])
  | c :: r => let (o', v) := pstep e o c in let (o'', l) := pexec e o' r in (o'', v :: l)
  end.
