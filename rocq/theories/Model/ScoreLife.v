(** The Scorecard object as a state machine: optbinning/scorecard/scorecard.py:30-118 (checks), 237-262 (constructor), 264-304, 333-446
    (public methods), 489-687 (_fit, _transform). Real arithmetic. The fit of the binning process, the estimator and the rounding solver
    are arbitrary functions that may raise; a fitted binning process is the list of its selected variables with their bins and tables
    ([svar] of Model/Scorecard.v). Not modelled: verbose, the timings, information, the descriptive columns of the table (only Variable
    and Points), pickle (save/load), checks that a parameter has the right Python type. *)
From Coq Require Import List ZArith Bool Reals.
From Verif Require Import Model.Arr Model.Core Model.Cat Model.Process Model.Scorecard.
Import ListNotations.
Open Scope R_scope.

(** A data frame: labelled columns (distinct labels) and its number of rows. Anything else raises TypeError in fit. *)
Record frame := mkF { fr_rows : nat; fr_cols : dict (list xval) }.
Inductive data := DFrame (f : frame) | DOther.
(** X[names]: KeyError (OtherError) if a label is missing *)
Fixpoint pick (c : dict (list xval)) (names : list name) : res (dict (list xval)) :=
  match names with
  | [] => Ok []
  | n :: r => match dget c n with None => Err OtherError | Some l => rbind (pick c r) (fun d => Ok ((n, l) :: d)) end
  end.
Definition pick_frame (f : frame) (names : list name) : res frame := rbind (pick (fr_cols f) names) (fun c => Ok (mkF (fr_rows f) c)).

Inductive starget := TgBinary | TgContinuous | TgOther.
(** The binning process: a clone that is not fitted yet, or fitted with its selected variables (names and fitted binnings). *)
Inductive process := PNew (names : list name) | PFit (names : list name) (vars : list (name * svar)).
Definition process_names (p : process) : list name := match p with PNew n => n | PFit n _ => n end.

(** Everything outside scorecard.py. [B]: the options of the binning process, [E0]: of the estimator. *)
Record world := mkW {
  w_B : Type; w_Y : Type; w_SW : Type; w_E0 : Type; w_E : Type; w_A : Type;
  w_target : w_Y -> starget;                                              (* type_of_target *)
  w_binning : w_B -> frame -> w_Y -> option w_SW -> res (list (name * svar));   (* fit; the selected variables *)
  w_clone : w_E0 -> w_E;
  w_estimator : w_E0 -> list (list R) -> w_Y -> option w_SW -> res w_E;
  w_coef : w_E -> option (list R * R);                                    (* coef_ and intercept_ (0 if absent) *)
  w_answer : bool -> w_E -> list (list R) -> res w_A;                     (* predict / predict_proba, decision_function *)
  w_mip : list (list R) -> option (list (list Z)) }.

Record params (w : world) := mkP { so_names : list name; so_bp : w_B w; so_est : w_E0 w; so_scaling : scaling; so_ib : bool; so_rev : bool; so_round : bool }.
Arguments mkP {w}. Arguments so_names {w}. Arguments so_bp {w}. Arguments so_est {w}. Arguments so_scaling {w}. Arguments so_ib {w}. Arguments so_rev {w}. Arguments so_round {w}.
Record state (w : world) := mkS {
  st_params : params w; st_ms : option (marg R); st_mm : option (marg R); st_target : option starget;
  st_process : option process; st_est : option (w_E w); st_intercept : R;
  st_df : option (list (name * list R)); st_fitted : bool }.
Arguments mkS {w}. Arguments st_params {w}. Arguments st_ms {w}. Arguments st_mm {w}. Arguments st_target {w}. Arguments st_process {w}.
Arguments st_est {w}. Arguments st_intercept {w}. Arguments st_df {w}. Arguments st_fitted {w}.
(** __init__ *)
Definition new_object {w} (o : params w) : state w := mkS o None None None None None 0 None false.
Definition with_params {w} (o : params w) (s : state w) : state w := mkS o (st_ms s) (st_mm s) (st_target s) (st_process s) (st_est s) (st_intercept s) (st_df s) (st_fitted s).
Definition with_metrics {w} (ms mm : marg R) (s : state w) : state w := mkS (st_params s) (Some ms) (Some mm) (st_target s) (st_process s) (st_est s) (st_intercept s) (st_df s) (st_fitted s).
Definition with_target {w} (t : starget) (s : state w) : state w := mkS (st_params s) (st_ms s) (st_mm s) (Some t) (st_process s) (st_est s) (st_intercept s) (st_df s) (st_fitted s).
Definition with_process {w} (p : process) (s : state w) : state w := mkS (st_params s) (st_ms s) (st_mm s) (st_target s) (Some p) (st_est s) (st_intercept s) (st_df s) (st_fitted s).
Definition with_est {w} (e : w_E w) (s : state w) : state w := mkS (st_params s) (st_ms s) (st_mm s) (st_target s) (st_process s) (Some e) (st_intercept s) (st_df s) (st_fitted s).
Definition with_result {w} (i : R) (df : list (name * list R)) (s : state w) : state w := mkS (st_params s) (st_ms s) (st_mm s) (st_target s) (st_process s) (st_est s) i (Some df) true.

(** 65-67 *)
Definition check_params {w} (o : params w) : res unit :=
  match so_scaling o with NoScaling => if so_round o then Err ValueError else Ok tt | _ => Ok tt end.
Definition is_integer (x : R) : bool := if Req_EM_T (IZR (Int_part x)) x then true else false.
Definition pos (x : R) : bool := if Rlt_dec 0 x then true else false.
(** 73-118 *)
Definition check_scaling {w} (o : params w) (t : starget) : res unit :=
  match so_scaling o with
  | NoScaling => Ok tt
  | PdoOdds pdo odds pts => match t with TgBinary => if pos pdo && pos odds && pos pts then Ok tt else Err ValueError | _ => Err ValueError end
  | MinMax a b => if Rlt_dec b a then Err ValueError else if so_round o && negb (is_integer a && is_integer b) then Err ValueError else Ok tt
  end.

(** BinningProcess.transform on a frame that has the columns of all its variables: one column per selected variable *)
Fixpoint all_ok {A} (l : list (res A)) : res (list A) :=
  match l with [] => Ok [] | r :: t => rbind r (fun a => rbind (all_ok t) (fun b => Ok (a :: b))) end.
Definition column (f : frame) (n : name) : list xval := match dget (fr_cols f) n with Some l => l | None => [] end.
Definition transform_values (vars : list (name * svar)) (ms mm : marg R) (f : frame) : res (list (list R)) :=
  all_ok (map (fun nv => all_ok (map (sv_value ms mm (snd nv)) (column f (fst nv)))) vars).
(** 680-687: _transform up to the call of transform; a process that is not fitted raises *)
Definition process_input {w} (s : state w) (X : data) : res (list (name * svar) * frame) :=
  if st_fitted s then
    match st_process s, X with
    | Some p, DFrame f => rbind (pick_frame f (process_names p)) (fun g => match p with PNew _ => Err NotFitted | PFit _ vars => Ok (vars, g) end)
    | _, _ => Err OtherError
    end
  else Err NotFitted.

(** 591-620: the Points columns; the coefficient of a variable is that of its position *)
Fixpoint with_coefs (vars : list (name * svar)) (coefs : list R) : res (list (name * svar)) :=
  match vars, coefs with
  | [], _ => Ok []
  | _ :: _, [] => Err IndexError
  | (n, v) :: r, c :: cr => rbind (with_coefs r cr) (fun l => Ok ((n, mkV (sv_bins v) (sv_sp v) (sv_metric v) (sv_unknown v) c) :: l))
  end.

(** 489-678 *)
Definition sc_fit {w} (s : state w) (X : data) (y : w_Y w) (sw : option (w_SW w)) (ms mm : marg R) : state w * res unit :=
  let o := st_params s in
  let s := with_metrics ms mm s in
  match check_params o with
  | Err e => (s, Err e)
  | Ok _ =>
    match X with
    | DOther => (s, Err TypeError)
    | DFrame f =>
      let t := w_target w y in
      let s := with_target t s in
      match t with
      | TgOther => (s, Err ValueError)
      | _ =>
        match check_scaling o t with
        | Err e => (s, Err e)
        | Ok _ =>
          if match sw, t with Some _, TgContinuous => true | _, _ => false end then (s, Err ValueError) else
          let s := with_process (PNew (so_names o)) s in
          match pick_frame f (so_names o) with
          | Err e => (s, Err e)
          | Ok g =>
            match w_binning w (so_bp o) g y sw with
            | Err e => (s, Err e)
            | Ok vars =>
              let s := with_process (PFit (so_names o) vars) s in
              match transform_values vars ms mm g with
              | Err e => (s, Err e)
              | Ok M =>
                let s := with_est (w_clone w (so_est o)) s in
                match w_estimator w (so_est o) M y sw with
                | Err e => (s, Err e)
                | Ok est =>
                  let s := with_est est s in
                  match w_coef w est with
                  | None => (s, Err OtherError)
                  | Some (coefs, ic) =>
                    match with_coefs vars coefs with
                    | Err e => (s, Err e)
                    | Ok [] => (s, Err ValueError)          (* pd.concat of nothing *)
                    | Ok vc =>
                      let '(pts, i) := fit_scorecard (so_scaling o) (so_rev o) (so_ib o) (so_round o) (w_mip w) (st_intercept s) ms mm ic (map snd vc) in
                      (with_result i (combine (map fst vc) pts) s, Ok tt)
                    end
                  end
                end
              end
            end
          end
        end
      end
    end
  end.

(** 337-394: predict (k = false), predict_proba / decision_function (k = true) *)
Definition sc_predict {w} (k : bool) (s : state w) (X : data) : res (w_A w) :=
  rbind (process_input s X) (fun q =>
  match st_ms s, st_mm s, st_est s with
  | Some ms, Some mm, Some e => rbind (transform_values (fst q) ms mm (snd q)) (fun M => w_answer w k e M)
  | _, _, _ => Err OtherError
  end).
(** 396-421: the points of a variable are the rows of the table with its name *)
Definition points_of (df : list (name * list R)) (n : name) : list R := match dget df n with Some l => l | None => [] end.
Definition record_of (f : frame) (names : list name) (i : nat) : list xval := map (fun n => nth i (column f n) XNaN) names.
Definition sc_score {w} (s : state w) (X : data) : res (list R) :=
  rbind (process_input s X) (fun q =>
  let '(vars, f) := q in
  match st_df s with
  | None => Err OtherError
  | Some df => all_ok (map (fun i => score (map (fun nv => points_of df (fst nv)) vars, st_intercept s) (map snd vars) (record_of f (map fst vars) i))
                           (seq 0 (fr_rows f)))
  end).
(** 423-452 *)
Definition sc_table {w} (s : state w) : res (list (name * list R)) :=
  if st_fitted s then match st_df s with Some d => Ok d | None => Err OtherError end else Err NotFitted.

(** Calls and histories *)
Inductive call (w : world) :=
| CFit (X : data) (y : w_Y w) (sw : option (w_SW w)) (ms mm : marg R)
| CPredict (k : bool) (X : data) | CScore (X : data) | CTable | CSet (o : params w).
Arguments CFit {w}. Arguments CPredict {w}. Arguments CScore {w}. Arguments CTable {w}. Arguments CSet {w}.
Inductive answer (w : world) := AUnit | APred (a : w_A w) | AScore (l : list R) | ATable (d : list (name * list R)).
Arguments AUnit {w}. Arguments APred {w}. Arguments AScore {w}. Arguments ATable {w}.
Definition step {w} (s : state w) (c : call w) : state w * res (answer w) :=
  match c with
  | CFit X y sw ms mm => let '(s', r) := sc_fit s X y sw ms mm in (s', rbind r (fun _ => Ok AUnit))
  | CPredict k X => (s, rbind (sc_predict k s X) (fun a => Ok (APred a)))
  | CScore X => (s, rbind (sc_score s X) (fun a => Ok (AScore a)))
  | CTable => (s, rbind (sc_table s) (fun a => Ok (ATable a)))
  | CSet o => (with_params o s, Ok AUnit)
  end.
Fixpoint run {w} (s : state w) (h : list (call w)) : state w := match h with [] => s | c :: r => run (fst (step s c)) r end.
