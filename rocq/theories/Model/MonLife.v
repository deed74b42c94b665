(** The ScorecardMonitoring object: optbinning/scorecard/monitoring.py:40-67 (checks), 75-150 (report), 194-224 (constructor), 225-313
    (fit), 343-420 (tables), 483-817 (statistics). Scores are integers (any ordered values); the target of a binary problem is given by the
    booleans y == 0. The scorecard and the pre-binning are arbitrary functions that may raise. Not modelled: verbose, timings, information,
    plots, Std and percentiles of the continuous target table, p-values (functions of the statistic), discriminant power and the regression
    metrics (an arbitrary function); comparing arrays whose lengths differ raises ValueError (numpy would broadcast a length of 1). *)
From Coq Require Import List ZArith QArith Bool Reals.
From Verif Require Import Model.Arr Model.Core Model.Multi Model.Metrics Model.MultiTable Model.Process Model.Classif Model.Monitor.
Import ListNotations.
Open Scope Z_scope.

Inductive target := YBin (y0 : list bool) | YCont (y : list Z) | YOther.
Inductive dtype := DBinary | DContinuous.
(** type_of_target; None: not supported *)
Definition type_of (y : target) : option dtype := match y with YBin _ => Some DBinary | YCont _ => Some DContinuous | YOther => None end.
Definition dtype_eqb (a b : dtype) : bool := match a, b with DBinary, DBinary | DContinuous, DContinuous => true | _, _ => false end.

(** What is outside monitoring.py. [F]: data frames, [O]: the options psi_method, psi_n_bins, psi_min_bin_size, show_digits. *)
Record scard (F : Type) := mkSC {
  sc_fitted : bool;
  sc_score : F -> res (list Z); sc_pred : F -> res (list bool); sc_proba : F -> res (list Z); sc_value : F -> res (list Q);
  sc_support : list name; sc_indices : name -> F -> res (list Z) }.
Arguments mkSC {F}. Arguments sc_fitted {F}. Arguments sc_score {F}. Arguments sc_pred {F}. Arguments sc_proba {F}. Arguments sc_value {F}.
Arguments sc_support {F}. Arguments sc_indices {F}.
Record outside := mkOut {
  u_F : Type; u_O : Type; u_columns : u_F -> list name; u_check : u_O -> bool;
  u_prebin : u_O -> list Z -> target -> res (list Z);
  u_regression : list Z -> list Q -> res (list Q) }.

(** a row of tests_table; the statistic of a continuous target is left out *)
Record btest := mkBT { bt_na : Z; bt_ne : Z; bt_ra : Q; bt_re : Q; bt_stat : R }.
Record ctest := mkCT { ct_na : Z; ct_ne : Z; ct_ma : option Q; ct_me : option Q }.   (* None: mean of an empty slice, nan *)
Inductive tests := TBin (l : list btest) | TCont (l : list ctest).
(** records, events, non-events, event rate / mean; actual and expected *)
Inductive tgt_table := TgBin (a e : Z * Z * Z * Q) | TgCont (a e : option Q).
(** performance_table: the metrics and Gini (nan, None, with a single class) / regression metrics *)
Inductive perf := PBin (a e : class_metrics * option Q) | PCont (a e : list Q).
Record mstate := mkM {
  ms_dtype : option dtype; ms_target : option tgt_table; ms_psi : option (list Z * list (Z * Z)); ms_tests : option tests;
  ms_perf : option perf; ms_splits : option (list Z); ms_counts : option (list Z * list Z);
  ms_vars : option (list (name * list (Z * Z))); ms_fitted : bool }.
Definition fresh_mon : mstate := mkM None None None None None None None None false.

(** y[mask].mean() *)
Definition mean_at (splits : list Z) (ys scores : list Z) (i : nat) : option Q :=
  let l := select (map (fun s => Nat.eqb (digitize_r splits s) i) scores) ys in
  match l with [] => None | _ => Some (inject_Z (zsum l) / inject_Z (Z.of_nat (length l)))%Q end.
Definition mean_all (ys : list Z) : option Q := match ys with [] => None | _ => Some (inject_Z (zsum ys) / inject_Z (Z.of_nat (length ys)))%Q end.
Definition bins_of (splits : list Z) : list nat := seq 0 (S (length splits)).
(** 614-643 *)
Definition test_obs (splits : list Z) (a e : list ssample) (i : nat) : list (list Z) :=
  [[sys_nonevent splits a i; sys_nonevent splits e i]; [sys_event splits a i; sys_event splits e i]].
Definition rate_at (splits : list Z) (d : list ssample) (i : nat) : Q :=
  (inject_Z (sys_event splits d i) / inject_Z (sys_nonevent splits d i + sys_event splits d i))%Q.
Fixpoint tests_loop (splits : list Z) (a e : list ssample) (is : list nat) : res (list btest) :=
  match is with
  | [] => Ok []
  | i :: r =>
      match chi2_contingency (test_obs splits a e i) with
      | Err x => Err x
      | Ok t => match tests_loop splits a e r with
                | Err x => Err x
                | Ok l => Ok (mkBT (sys_nonevent splits a i + sys_event splits a i) (sys_nonevent splits e i + sys_event splits e i)
                                   (rate_at splits a i) (rate_at splits e i) t :: l)
                end
      end
  end.
(** 716-750; y_true is the label 1, i.e. not (y == 0) *)
Definition perf_side {F} (sc : scard F) (X : F) (y0 : list bool) : res class_metrics :=
  match sc_pred sc X with
  | Err x => Err x
  | Ok p => if negb (Nat.eqb (length p) (length y0)) then Err ValueError
            else match imbalanced_metrics (combine (map negb y0) p) with None => Err ValueError | Some m => Ok m end
  end.
Definition gini_side {F} (sc : scard F) (X : F) (y0 : list bool) : res (option Q) :=
  match sc_proba sc X with
  | Err x => Err x
  | Ok p => if negb (Nat.eqb (length p) (length y0)) then Err ValueError
            else let d := combine (map negb y0) p in Ok (if (n_event d * n_nonevent d =? 0) then None else Some (gini d))
  end.
Definition perf_binary {F} (sc : scard F) (Xa : F) (ya : list bool) (Xe : F) (ye : list bool) : res perf :=
  rbind (perf_side sc Xa ya) (fun ma => rbind (perf_side sc Xe ye) (fun me =>
  rbind (gini_side sc Xa ya) (fun ga => rbind (gini_side sc Xe ye) (fun ge => Ok (PBin (ma, ga) (me, ge)))))).
Definition perf_cont (u : outside) (sc : scard (u_F u)) (Xa : u_F u) (ya : list Z) (Xe : u_F u) (ye : list Z) : res perf :=
  rbind (sc_value sc Xa) (fun pa => rbind (u_regression u ya pa) (fun ma =>
  rbind (sc_value sc Xe) (fun pe => rbind (u_regression u ye pe) (fun me => Ok (PCont ma me))))).
(** 776-817. te.max() of an empty array and pd.concat of an empty list raise ValueError. *)
Fixpoint var_loop {F} (sc : scard F) (Xa Xe : F) (names : list name) : res (list (name * list (Z * Z))) :=
  match names with
  | [] => Ok []
  | nm :: r =>
      rbind (sc_indices sc nm Xa) (fun ta => rbind (sc_indices sc nm Xe) (fun te =>
      match te with [] => Err ValueError | _ => rbind (var_loop sc Xa Xe r) (fun l => Ok ((nm, var_rows ta te) :: l)) end))
  end.
Definition fit_vars {F} (sc : scard F) (Xa Xe : F) : res (list (name * list (Z * Z))) :=
  match sc_support sc with [] => Err ValueError | names => var_loop sc Xa Xe names end.

Fixpoint names_eqb (a b : list name) : bool := match a, b with [], [] => true | x :: r, y :: s => Z.eqb x y && names_eqb r s | _, _ => false end.

Section Fit.
Variable u : outside.
Let F := u_F u.
(** assignments, in program order *)
Definition set_dtype d s := mkM (Some d) (ms_target s) (ms_psi s) (ms_tests s) (ms_perf s) (ms_splits s) (ms_counts s) (ms_vars s) (ms_fitted s).
Definition set_target t s := mkM (ms_dtype s) (Some t) (ms_psi s) (ms_tests s) (ms_perf s) (ms_splits s) (ms_counts s) (ms_vars s) (ms_fitted s).
Definition set_psi p s := mkM (ms_dtype s) (ms_target s) (Some p) (ms_tests s) (ms_perf s) (ms_splits s) (ms_counts s) (ms_vars s) (ms_fitted s).
Definition set_tests t s := mkM (ms_dtype s) (ms_target s) (ms_psi s) (Some t) (ms_perf s) (ms_splits s) (ms_counts s) (ms_vars s) (ms_fitted s).
Definition set_perf p s := mkM (ms_dtype s) (ms_target s) (ms_psi s) (ms_tests s) (Some p) (ms_splits s) (ms_counts s) (ms_vars s) (ms_fitted s).
Definition set_splits sp c s := mkM (ms_dtype s) (ms_target s) (ms_psi s) (ms_tests s) (ms_perf s) (Some sp) (Some c) (ms_vars s) (ms_fitted s).
Definition set_vars v s := mkM (ms_dtype s) (ms_target s) (ms_psi s) (ms_tests s) (ms_perf s) (ms_splits s) (ms_counts s) (Some v) true.

(** 571-580 and 295-313: what follows the statistics at system level *)
Definition finish_fit (sc : scard F) (Xa Xe : F) (splits na ne : list Z) (s : mstate) : mstate * res unit :=
  let s := set_splits splits (na, ne) s in
  match fit_vars sc Xa Xe with Err x => (s, Err x) | Ok v => (set_vars v s, Ok tt) end.
(** 483-580, binary: counts, target table, PSI, tests, performance *)
Definition fit_binary (sc : scard F) (o : u_O u) (Xa : F) (ya : list bool) (Xe : F) (ye : list bool) (s : mstate) : mstate * res unit :=
  match sc_score sc Xa with Err x => (s, Err x) | Ok za =>
  match sc_score sc Xe with Err x => (s, Err x) | Ok ze =>
  match u_prebin u o ze (YBin ye) with Err x => (s, Err x) | Ok splits =>
  if negb (Nat.eqb (length za) (length ya) && Nat.eqb (length ze) (length ye)) then (s, Err ValueError) else
  let a := combine ya za in let e := combine ye ze in
  let s := set_target (TgBin (target_analysis splits a) (target_analysis splits e)) s in
  let s := set_psi (splits, sys_rows splits a e) s in
  match tests_loop splits a e (bins_of splits) with Err x => (s, Err x) | Ok t =>
  let s := set_tests (TBin t) s in
  match perf_binary sc Xa ya Xe ye with Err x => (s, Err x) | Ok p =>
  finish_fit sc Xa Xe splits (sys_records splits a) (sys_records splits e) (set_perf p s)
  end end end end end.
(** ... and continuous *)
Definition cont_records (splits scores : list Z) (i : nat) : Z := count_if (fun s => Nat.eqb (digitize_r splits s) i) scores.
Definition cont_counts (splits scores : list Z) : list Z := map (cont_records splits scores) (bins_of splits).
Definition fit_continuous (sc : scard F) (o : u_O u) (Xa : F) (ya : list Z) (Xe : F) (ye : list Z) (s : mstate) : mstate * res unit :=
  match sc_score sc Xa with Err x => (s, Err x) | Ok za =>
  match sc_score sc Xe with Err x => (s, Err x) | Ok ze =>
  match u_prebin u o ze (YCont ye) with Err x => (s, Err x) | Ok splits =>
  if negb (Nat.eqb (length za) (length ya) && Nat.eqb (length ze) (length ye)) then (s, Err ValueError) else
  let s := set_target (TgCont (mean_all ya) (mean_all ye)) s in
  let s := set_psi (splits, map2 pair (cont_counts splits za) (cont_counts splits ze)) s in
  let s := set_tests (TCont (map (fun i => mkCT (cont_records splits za i) (cont_records splits ze i)
                                    (mean_at splits ya za i) (mean_at splits ye ze i)) (bins_of splits))) s in
  match perf_cont u sc Xa ya Xe ye with Err x => (s, Err x) | Ok p =>
  finish_fit sc Xa Xe splits (cont_counts splits za) (cont_counts splits ze) (set_perf p s)
  end end end end.
(** 225-313 *)
Definition fit_mon (sc : scard F) (o : u_O u) (Xa : F) (ya : target) (Xe : F) (ye : target) (s : mstate) : mstate * res unit :=
  if negb (u_check u o) then (s, Err ValueError) else
  if negb (sc_fitted sc) then (s, Err NotFitted) else
  match type_of ya, type_of ye with
  | None, _ | _, None => (s, Err ValueError)
  | Some da, Some de =>
      if negb (dtype_eqb da de) then (s, Err ValueError) else
      let s := set_dtype da s in
      if negb (names_eqb (u_columns u Xa) (u_columns u Xe)) then (s, Err ValueError) else
      match ya, ye with
      | YBin a, YBin e => fit_binary sc o Xa a Xe e s
      | YCont a, YCont e => fit_continuous sc o Xa a Xe e s
      | _, _ => (s, Err OtherError)
      end
  end.

(** ** The world: the scorecard is shared with the caller, who may refit it *)
Record mworld := mkMW { mw_sc : scard F; mw_o : u_O u; mw_s : mstate }.
Inductive mop := Fit (Xa : F) (ya : target) (Xe : F) (ye : target) | SetParams (o : u_O u) | RefitScorecard (sc : scard F).
Definition mstep (w : mworld) (op : mop) : mworld :=
  match op with
  | Fit Xa ya Xe ye => mkMW (mw_sc w) (mw_o w) (fst (fit_mon (mw_sc w) (mw_o w) Xa ya Xe ye (mw_s w)))
  | SetParams o => mkMW (mw_sc w) o (mw_s w)
  | RefitScorecard sc => mkMW sc (mw_o w) (mw_s w)
  end.
Definition mrun (w : mworld) (ops : list mop) : mworld := fold_left mstep ops w.
Definition new_mon (sc : scard F) (o : u_O u) : mworld := mkMW sc o fresh_mon.

(** ** The reads: 335-420, 819-829 *)
Inductive mquery := QPsi | QTests | QSplits | QReport | QVars (nm : option name) (detailed : option bool).   (* None: an invalid style *)
Inductive manswer :=
  | APsi (splits : list Z) (rows : list (Z * Z)) (psi : list xreal) (total : xreal)
  | ATests (t : tests) | ASplits (l : list Z)
  | AReport (psi : list Z * list (Z * Z)) (t : tests) (g : tgt_table) (p : perf)
  | ADetailed (l : list (name * list (Z * Z * xreal))) | ASummary (l : list (name * xreal)).
Definition with_psi (rows : list (Z * Z)) : list (Z * Z * xreal) := map2 pair rows (psi_column rows).
(** 398-404: groupby("Variable")["PSI"].sum(): sorted names; nan skipped *)
Definition group_sum (v : list (name * list (Z * Z))) : list (name * xreal) :=
  map (fun nm => (nm, xsum_skipna (flat_map (fun e => psi_column (snd e)) (filter (fun e => Z.eqb (fst e) nm) v)))) (np_unique (map fst v)).
Definition unset {A} : res A := Err OtherError.
Definition answer (w : mworld) (q : mquery) : res manswer :=
  let s := mw_s w in
  if negb (ms_fitted s) then Err NotFitted else
  match q with
  | QPsi => match ms_psi s with None => unset | Some (sp, rows) => Ok (APsi sp rows (psi_column rows) (psi_total rows)) end
  | QTests => match ms_tests s with None => unset | Some t => Ok (ATests t) end
  | QSplits => match ms_splits s with None => unset | Some l => Ok (ASplits l) end
  | QReport => match ms_psi s, ms_tests s, ms_target s, ms_perf s with Some p, Some t, Some g, Some f => Ok (AReport p t g f) | _, _, _, _ => unset end
  | QVars nm style =>
      match style with
      | None => Err ValueError
      | Some detailed =>
          match ms_vars s with
          | None => unset
          | Some v =>
              match nm with
              | None => Ok (if detailed then ADetailed (map (fun e => (fst e, with_psi (snd e))) v) else ASummary (group_sum v))
              | Some nm => if negb (zmem nm (sc_support (mw_sc w))) then Err ValueError
                           else let dv := filter (fun e => Z.eqb (fst e) nm) v in
                                Ok (if detailed then ADetailed (map (fun e => (fst e, with_psi (snd e))) dv) else ASummary (group_sum dv))
              end
          end
      end
  end.
End Fit.
Arguments Fit {u}. Arguments SetParams {u}. Arguments RefitScorecard {u}.

(** ** The report, 75-103: [th]: the thresholds 1/10 and 1/4 *)
Definition xge (x : xreal) (q : R) : bool := match x with XFin r => if Rle_dec q r then true else false | _ => true end.
Definition xgt (x : xreal) (q : R) : bool := match x with XFin r => if Rlt_dec q r then true else false | _ => true end.
(** np.digitize: nan is sorted after every number *)
Definition class_left (x : xreal) : nat := ((if xge x (1 / 10) then 1 else 0) + (if xge x (1 / 4) then 1 else 0))%nat.
Definition class_right (x : xreal) : nat := ((if xgt x (1 / 10) then 1 else 0) + (if xgt x (1 / 4) then 1 else 0))%nat.
(** 88: 0 "No significant change", 1 "Requires investigation", 2 "Significance change" *)
Definition verdict (rows : list (Z * Z)) : nat := class_left (psi_total rows).
(** 76-86: the numbers of bins shown for [0.00, 0.10), [0.10, 0.25), [0.25, Inf+) *)
Definition psi_bins (rows : list (Z * Z)) : list Z :=
  map (fun i => count_if (fun x => Nat.eqb (class_right x) i) (psi_column rows)) (seq 0 3).
