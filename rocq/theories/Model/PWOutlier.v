(** The outlier detector of the piecewise binning objects, optbinning/binning/piecewise: base.py:341-348 (split_data, first pass),
    base.py:361-405 (the inner ContinuousOptimalBinning / OptimalBinning gets the clean data and the same detector, which it applies in
    its own split_data: second pass), binning.py:318-419 and continuous_binning.py:305-396 (the rows of the bins are those of the inner
    table without its last two rows). Sample weights are 1. Not modelled here: the regression, statistics other than counts and sums
    (Model/PWLife.v, Model/PWTable.v); an estimator or a pre-binning given no data raises ValueError; a user's detector parameters are those
    of the constructors. *)
From Coq Require Import List ZArith QArith Bool Arith.
From Verif Require Import Model.Arr Model.Core Model.Cont Model.Outlier Model.PWLife.
Import ListNotations.
Open Scope Z_scope.

(** preprocessing.py:231-246 *)
Inductive detector := OneArray (d : detector1) | YQuantile (d : detector1) (n_bins : Z).
Definition detect (dt : detector) (l : list (Z * Z)) : res (list bool) :=
  match dt with OneArray d => fit1 d (map fst l) | YQuantile d nb => yquantile_fit d nb (map fst l) (map snd l) end.
(** 248-250 *)
Definition remove_outliers (dt : option detector) (l : list (Z * Z)) : res (list (Z * Z)) :=
  match dt with None => Ok l | Some dt => rbind (detect dt l) (fun m => Ok (select (mnot m) l)) end.
(** the two count columns of the inner table: Non-event and Event, or Count and Sum *)
Definition count_row (k : pwkind) (b : list (Z * Z)) : Z * Z :=
  match k with
  | PWBinary => (Z.of_nat (length (filter (fun r => snd r =? 0) b)), Z.of_nat (length (filter (fun r => negb (snd r =? 0)) b)))
  | PWContinuous => (Z.of_nat (length b), zsum (map snd b))
  end.
Definition count_rows (k : pwkind) (splits : list Z) (l : list (Z * Z)) : list (Z * Z) :=
  map (fun i => count_row k (filter (fun r => Nat.eqb (digitize splits (fst r)) i) l)) (seq 0 (S (length splits))).
(** the records behind a row *)
Definition row_records (k : pwkind) (r : Z * Z) : Z := match k with PWBinary => fst r + snd r | PWContinuous => fst r end.
(** [on_clean]: what the estimator, the regression and the metrics are given *)
Record pwout := mkPWO { on_clean : list (Z * Z); on_splits : list Z; on_rows : list (Z * Z); on_special : Z; on_missing : Z }.
Definition pw_outlier_fit (k : pwkind) (dt : option detector) (sp : special) (inner_splits : list (Z * Z) -> list Z) (d : pdata) : res pwout :=
  let l := filter (k_clean sp) (recs d) in
  let clean := map (fun r => (num (k_x r), match k_y r with Some y => y | None => 0 end)) l in
  rbind (remove_outliers dt clean) (fun once =>
  match once with
  | [] => Err ValueError
  | _ =>
      rbind (remove_outliers dt once) (fun twice =>
      match twice with
      | [] => Err ValueError
      | _ => let splits := inner_splits twice in
             Ok (mkPWO once splits (count_rows k splits twice) (Z.of_nat (length (filter (k_special sp) (recs d)))) (Z.of_nat (length (filter k_missing (recs d)))))
      end)
  end).
