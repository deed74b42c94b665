(** ScorecardMonitoring.psi_plot, optbinning/scorecard/monitoring.py:421-481, with the attributes it reads: _n_records_a/_n_records_e
    ([ms_counts]), _target_dtype ([ms_dtype]) and _metric_a/_metric_e, written at 600-601 and 642-643 before the tests are computed, so they
    are a component of their own here. A figure is what matplotlib is given: positions, heights, the two lines; texts, colours and the legend
    are not modelled. *)
From Coq Require Import List ZArith QArith Bool.
From Verif Require Import Model.Arr Model.Core Model.Process Model.Classif Model.Monitor Model.MonLife.
Import ListNotations.
Open Scope Z_scope.

Definition metrics := (list (option Q) * list (option Q))%type.
(** a / b as numpy divides: None is nan or an infinity *)
Definition ratio (a b : Z) : option Q := if b =? 0 then None else Some (inject_Z a / inject_Z b)%Q.
(** 597-601 *)
Definition rates (splits : list Z) (d : list ssample) : list (option Q) :=
  map (fun i => ratio (sys_event splits d i) (sys_nonevent splits d i + sys_event splits d i)) (bins_of splits).
(** 540-551 *)
Definition means (splits ys scores : list Z) : list (option Q) := map (fun i => mean_at splits ys scores i) (bins_of splits).

Section Psi.
Variable u : outside.
Let F := u_F u.
(** The metrics a call of fit leaves: those of this call if it comes as far as the tests (225-293, 483-576), otherwise the former ones. *)
Definition new_metrics (sc : scard F) (o : u_O u) (Xa : F) (ya : target) (Xe : F) (ye : target) : option metrics :=
  if negb (u_check u o) || negb (sc_fitted sc) || negb (names_eqb (u_columns u Xa) (u_columns u Xe)) then None else
  match sc_score sc Xa, sc_score sc Xe with
  | Ok za, Ok ze =>
      match ya, ye with
      | YBin a, YBin e =>
          match u_prebin u o ze (YBin e) with
          | Ok sp => if Nat.eqb (length za) (length a) && Nat.eqb (length ze) (length e) then Some (rates sp (combine a za), rates sp (combine e ze)) else None
          | Err _ => None
          end
      | YCont a, YCont e =>
          match u_prebin u o ze (YCont e) with
          | Ok sp => if Nat.eqb (length za) (length a) && Nat.eqb (length ze) (length e) then Some (means sp a za, means sp e ze) else None
          | Err _ => None
          end
      | _, _ => None
      end
  | _, _ => None
  end.
Record pworld := mkPW { pw_w : mworld u; pw_metrics : option metrics }.
Definition pstep (w : pworld) (op : mop u) : pworld :=
  mkPW (mstep u (pw_w w) op)
       match op with
       | Fit Xa ya Xe ye => match new_metrics (mw_sc u (pw_w w)) (mw_o u (pw_w w)) Xa ya Xe ye with Some m => Some m | None => pw_metrics w end
       | _ => pw_metrics w
       end.
Definition prun (w : pworld) (ops : list (mop u)) : pworld := fold_left pstep ops w.
Definition new_pmon (sc : scard F) (o : u_O u) : pworld := mkPW (new_mon u sc o) None.

(** bars: centre and height; lines: abscissa and ordinate *)
Record psi_fig := mkPsi { pg_width : Q; pg_actual : list (Q * option Q); pg_expected : list (Q * option Q);
                          pg_line_a : list (Q * option Q); pg_line_e : list (Q * option Q); pg_label : dtype }.
Definition heights (l : list Z) : list (option Q) := map (fun c => match ratio c (zsum l) with Some q => Some (q * 100)%Q | None => None end) l.
Definition positions (n : nat) : list Q := map (fun i => inject_Z (Z.of_nat i)) (seq 0 n).
(** np.min(np.diff(np.arange(n)))/3: the minimum of an empty array raises ValueError *)
Definition bar_width (n : nat) : res Q := match (n - 1)%nat with O => Err ValueError | _ => Ok (1 # 3) end.
(** [savefig]: None, or whether it is a string *)
Definition psi_plot (w : pworld) (savefig : option bool) : res psi_fig :=
  let s := mw_s u (pw_w w) in
  if negb (ms_fitted s) then Err NotFitted else
  match ms_counts s with
  | None => unset
  | Some (na, ne) =>
      let n := length na in
      rbind (bar_width n) (fun width =>
      if negb (Nat.eqb (length ne) n) then Err ValueError else
      match ms_dtype s, pw_metrics w with
      | Some d, Some (ma, me) =>
          if negb (Nat.eqb (length ma) n) || negb (Nat.eqb (length me) n) then Err ValueError else
          match savefig with
          | Some false => Err TypeError
          | _ => Ok (mkPsi width (combine (map (fun x => (x - width)%Q) (positions n)) (heights na)) (combine (positions n) (heights ne))
                           (combine (positions n) ma) (combine (positions n) me) d)
          end
      | _, _ => unset
      end)
  end.
End Psi.
