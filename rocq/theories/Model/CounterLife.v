(** The Counterfactual object: optbinning/scorecard/counterfactual/counterfactual.py (all of it but information and timings), base.py.
    The optimisation problem it poses is that of Model/Counterfactual.v. Real arithmetic. Arguments have the documented types (the
    TypeErrors are not modelled). A query is a table with one row per data point (a dict has one row); columns are distinct. *)
From Coq Require Import List ZArith Bool Arith Reals.
From Verif Require Import Model.Arr Model.Core Model.Cat Model.Metrics Model.Scorecard Model.Process Model.Counterfactual.
Import ListNotations.
Open Scope R_scope.

Inductive cexn := Raise (e : exn) | NotGenerated | NotFound.
Inductive cres (A : Type) := COk (a : A) | CErr (e : cexn).
Arguments COk {A}. Arguments CErr {A}.

(** The scorecard as the object reads it: the selected variables with their tables, the estimator, the target type (binary or continuous) *)
Record card := mkCard { k_fitted : bool; k_names : list name; k_vars : list svar; k_int : R; k_binary : bool }.
(** problem_data.py:36-58: proximity weights, Cholesky factor, means; and the segments of the logistic function (from min_p, max_p) *)
Record pdata := mkP { p_wr : list R; p_F : nat -> nat -> R; p_mu : list R; p_pw : list ((R * R) * (R * R)) }.
(** the numerical part of fit may raise (LinAlgError of a singular covariance) *)
Record outside := { u_X : Type; u_cols : u_X -> list name; u_math : card -> u_X -> res pdata }.

(** ** Requests *)
Inductive otype := TBinary | TProbability | TContinuous | TInvalid.
Inductive objname := OProximity | OCloseness | OInvalid.
Inductive consname := CDivF | CDivV | CMin | CMax | CDiff | CInvalid.
Record query := mkQ { q_cols : list name; q_rows : list (list xval) }.
Record request := mkR { r_query : query; r_y : R; r_type : otype; r_ncf : Z; r_method : option bool;   (* Some true: weighted, Some false: hierarchical *)
  r_obj : option (list (objname * R)); r_maxch : option Z; r_act : option (list name); r_hard : option (list consname);
  r_soft : option (list (consname * R)); r_tol : R; r_time : R }.
Definition rltb (a b : R) : bool := if Rlt_dec a b then true else false.
Definition rleb (a b : R) : bool := if Rle_dec a b then true else false.
Definition reqb (a b : R) : bool := if Req_EM_T a b then true else false.
Definition objname_eqb (a b : objname) : bool := match a, b with OProximity, OProximity | OCloseness, OCloseness | OInvalid, OInvalid => true | _, _ => false end.
Definition consname_eqb (a b : consname) : bool :=
  match a, b with CDivF, CDivF | CDivV, CDivV | CMin, CMin | CMax, CMax | CDiff, CDiff | CInvalid, CInvalid => true | _, _ => false end.
Definition cmem (c : consname) (l : list consname) : bool := existsb (consname_eqb c) l.
Definition is_none {A} (o : option A) : bool := match o with None => true | Some _ => false end.
Definition optlist {A} (o : option (list A)) : list A := match o with None => [] | Some l => l end.
(** 31-44 *)
Definition hard_names (t : otype) : list consname := match t with TBinary => [CDivF; CDivV] | _ => [CDivF; CDivV; CMin; CMax] end.
Definition soft_names (t : otype) : list consname := match t with TBinary => [CDivF; CDivV] | _ => [CDivF; CDivV; CDiff] end.
Fixpoint distinct (l : list consname) : bool := match l with [] => true | c :: r => negb (cmem c r) && distinct r end.
(** 124-197 *)
Definition check_constraints (r : request) : bool :=
  negb (is_none (r_method r)) &&
  match r_obj r with None => true
  | Some l => negb (Nat.eqb (length l) 0) && forallb (fun e => negb (objname_eqb (fst e) OInvalid) && negb (rleb (snd e) 0)) l end &&
  match r_hard r with None => true | Some l => distinct l && forallb (fun c => cmem c (hard_names (r_type r))) l end &&
  match r_soft r with None => true | Some l => forallb (fun e => cmem (fst e) (soft_names (r_type r)) && negb (rleb (snd e) 0)) l end &&
  match r_type r with
  | TBinary => true
  | _ => negb (is_none (r_hard r) && is_none (r_soft r)) &&
         existsb (fun c => cmem c [CMin; CMax; CDiff]) (optlist (r_hard r) ++ map fst (optlist (r_soft r)))
  end.
(** 66-121 and 412-421 *)
Definition check_request (c : card) (names : list name) (r : request) : bool :=
  (if k_binary c then
     match r_type r with
     | TBinary => reqb (r_y r) 0 || reqb (r_y r) 1
     | TProbability => rleb 0 (r_y r) && rleb (r_y r) 1
     | _ => false end
   else match r_type r with TContinuous => true | _ => false end) &&
  (0 <? r_ncf r)%Z && match r_maxch r with None => true | Some m => (0 <? m)%Z end &&
  match r_act r with None => true | Some l => forallb (fun v => zmem v names) l end &&
  check_constraints r && (rleb 0 (r_tol r) && rleb (r_tol r) 1) && negb (rleb (r_time r) 0).

(** 616-623: [query[self._variable_names]] (KeyError), then transform by the binning process: every selected variable must be a column
    (ValueError); row by row, in the order of the process *)
Fixpoint lookup (cols : list name) (row : list xval) (v : name) : option xval :=
  match cols, row with k :: cr, x :: rr => if (k =? v)%Z then Some x else lookup cr rr v | _, _ => None end.
Fixpoint lookup_all (cols : list name) (row : list xval) (vs : list name) : option (list xval) :=
  match vs with
  | [] => Some []
  | v :: r => match lookup cols row v, lookup_all cols row r with Some x, Some l => Some (x :: l) | _, _ => None end
  end.
Definition transform_row (c : card) (cols : list name) (row : list xval) : res (list R) :=
  match lookup_all cols row (k_names c) with None => Err ValueError | Some l => transform_query (k_vars c) l end.
Fixpoint transform_rows (c : card) (cols : list name) (rows : list (list xval)) : res (list (list R)) :=
  match rows with [] => Ok [] | row :: r => rbind (transform_row c cols row) (fun a => rbind (transform_rows c cols r) (fun b => Ok (a :: b))) end.
Definition transform_table (c : card) (names : list name) (q : query) : res (list (list R)) :=
  if negb (forallb (fun v => zmem v (q_cols q)) names) then Err OtherError else
  if negb (forallb (fun v => zmem v names) (k_names c)) then Err ValueError else
  match q_rows q with [] => Err ValueError | rows => transform_rows c (q_cols q) rows end.

(** 426-446, 625-657: objectives, constraints, max_changes, non-actionable features *)
Fixpoint oassoc (n : objname) (l : list (objname * R)) : option R := match l with [] => None | (k, w) :: r => if objname_eqb k n then Some w else oassoc n r end.
Fixpoint cassoc (n : consname) (l : list (consname * R)) : option R := match l with [] => None | (k, w) :: r => if consname_eqb k n then Some w else cassoc n r end.
Definition objectives_of (r : request) : list (objname * R) :=
  match r_obj r with
  | Some l => l
  | None => match r_method r with Some true => [(OProximity, 1); (OCloseness, 1)] | _ => [(OProximity, 2); (OCloseness, 1)] end
  end.
Definition diversity (c : consname) : bool := cmem c [CDivF; CDivV].
Definition hard_of (r : request) : list consname :=
  let l := optlist (r_hard r) in if (r_ncf r =? 1)%Z then filter (fun c => negb (diversity c)) l else l.
Definition soft_of (r : request) : list (consname * R) :=
  let l := optlist (r_soft r) in if (r_ncf r =? 1)%Z then filter (fun e => negb (diversity (fst e))) l else l.
Definition nonact_of (names : list name) (act : option (list name)) : list nat :=
  match act with None => [] | Some l => filter (fun i => negb (zmem (nth i names 0%Z) l)) (seq 0 (length names)) end.
Definition params_of (names : list name) (r : request) : cfparams :=
  {| g_prox := oassoc OProximity (objectives_of r); g_close := oassoc OCloseness (objectives_of r); g_diff := cassoc CDiff (soft_of r);
     g_wdivf := cassoc CDivF (soft_of r); g_wdivv := cassoc CDivV (soft_of r); g_min := cmem CMin (hard_of r); g_max := cmem CMax (hard_of r);
     g_divf := cmem CDivF (hard_of r); g_divv := cmem CDivV (hard_of r);
     g_maxch := max_changes (length names) (r_maxch r); g_nonact := nonact_of names (r_act r) |}.
Definition outcome_of (r : request) : outcome :=
  match r_type r with TBinary => OBin (reqb (r_y r) 1) | TProbability => OProb (r_y r) | _ => OCont (r_y r) end.
Definition n_of (r : request) : nat := Z.to_nat (r_ncf r).

(** ** The object: 221-241 *)
Inductive status := OPTIMAL | FEASIBLE | ABNORMAL | INFEASIBLE | UNBOUNDED | UNKNOWN.
Definition has_solution (st : status) : bool := match st with OPTIMAL | FEASIBLE => true | _ => false end.
Inductive cell := Orig (x : xval) | BinOf (v : name) (row : nat) | Dash.
Record entry := mkE { e_type : otype; e_cols : list name; e_rows : list (list cell); e_score : R; e_features : list name }.
Record cprob := mkPr { pr_int : R; pr_coef : list R; pr_data : pdata }.
Record cstate := mkC { cs_names : option (list name); cs_prob : option cprob; cs_cfs : option (list entry); cs_status : option status;
                       cs_fitted : bool; cs_generated : bool }.
Definition fresh_cf : cstate := mkC None None None None false false.

(** 243-301; [_variable_names] is assigned before X is checked *)
Definition cf_fit (u : outside) (c : card) (X : u_X u) (s : cstate) : cstate * cres unit :=
  if negb (k_fitted c) then (s, CErr (Raise NotFitted)) else
  let s1 := mkC (Some (k_names c)) (cs_prob s) (cs_cfs s) (cs_status s) (cs_fitted s) (cs_generated s) in
  if negb (forallb (fun v => zmem v (u_cols u X)) (k_names c)) then (s1, CErr (Raise ValueError)) else
  match u_math u c X with
  | Err e => (s1, CErr (Raise e))
  | Ok d => (mkC (Some (k_names c)) (Some (mkPr (k_int c) (map sv_coef (k_vars c)) d)) (cs_cfs s) (cs_status s) true false, COk tt)
  end.

(** 447-481: the data of the optimisation problem: tables of the scorecard of today, the rest from fit; [x]: the first row of the query *)
Definition data_of (c : card) (special_missing : bool) (P : cprob) (x : list R) : cfdata :=
  {| d_cand := map2 (fun v a => candidates special_missing (sv_metric v) a) (k_vars c) x; d_x := x; d_coef := pr_coef P; d_int := pr_int P;
     d_wr := p_wr (pr_data P); d_F := p_F (pr_data P); d_mu := p_mu (pr_data P); d_pw := p_pw (pr_data P) |}.
(** what generate poses to the solver, or the exception before that; 407-481 *)
Definition posed (c : card) (special_missing : bool) (s : cstate) (r : request) : res (cfparams * cfdata) :=
  if negb (cs_fitted s) then Err NotFitted else
  match cs_names s, cs_prob s with
  | Some names, Some P =>
      if negb (check_request c names r) then Err ValueError else
      match transform_table c names (r_query r) with
      | Err e => Err e
      | Ok [] => Err OtherError
      | Ok (x :: _) => if Nat.ltb (length (k_names c)) (length (pr_coef P)) then Err IndexError else Ok (params_of names r, data_of c special_missing P x)
      end
  | _, _ => Err OtherError
  end.

(** mip.py:195-198, multi_mip.py:240-245: [np.array([...], dtype=object)] of arrays of equal length is an array of objects with one more
    axis, whose rows numpy does not accept as an index (IndexError); otherwise its elements are boolean arrays *)
Definition rectangular (D : cfdata) : bool :=
  match map (fun i => length (cnd D i)) (seq 0 (d_p D)) with [] => false | a :: l => forallb (Nat.eqb a) l end.
(** 606-612: the column of a changed feature is assigned an array with one element per selected row of its table *)
Definition new_cells (names : list name) (D : cfdata) (z : nat -> list bool) (row : nat) (v : name) (x : xval) : cell :=
  match index_of names v with
  | Some i => match nth_error (new_index D z i) row with Some j => BinOf v j | None => Orig x end
  | None => Orig x
  end.
Definition entry_of (names : list name) (r : request) (D : cfdata) (z : nat -> list bool) : res entry :=
  let q := r_query r in
  if negb (forallb (fun i => let k := length (new_index D z i) in Nat.eqb k 0 || Nat.eqb k (length (q_rows q))) (seq 0 (length names))) then Err ValueError else
  Ok (mkE (r_type r) (q_cols q)
        (map2 (fun n row => map2 (new_cells names D z n) (q_cols q) row) (seq 0 (length (q_rows q))) (q_rows q))
        (cf_score D z)
        (map (fun i => nth i names 0%Z) (filter (fun i => negb (Nat.eqb (length (new_index D z i)) 0)) (seq 0 (length names))))).
Fixpoint entries (names : list name) (r : request) (D : cfdata) (zs : list (nat -> list bool)) : res (list entry) :=
  match zs with [] => Ok [] | z :: l => rbind (entry_of names r D z) (fun e => rbind (entries names r D l) (fun t => Ok (e :: t))) end.
(** What the solver does: an earlier stage of the hierarchical method without a solution raises; otherwise a status and, for OPTIMAL and
    FEASIBLE, the values of z for every counterfactual *)
Inductive answer := Stopped | Answer (st : status) (z : nat -> nat -> list bool).
(** 336-539 *)
Definition cf_generate (c : card) (special_missing : bool) (s : cstate) (r : request) (a : answer) : cstate * cres unit :=
  match posed c special_missing s r with
  | Err e => (s, CErr (Raise e))
  | Ok (G, D) =>
      match a with
      | Stopped => (s, CErr (Raise OtherError))
      | Answer st z =>
          let s1 := mkC (cs_names s) (cs_prob s) (cs_cfs s) (Some st) (cs_fitted s) (cs_generated s) in
          if has_solution st then
            if rectangular D then (s1, CErr (Raise IndexError)) else
            match entries (match cs_names s with Some l => l | None => [] end) r D (map z (seq 0 (n_of r))) with
            | Err e => (s1, CErr (Raise e))
            | Ok l => (mkC (cs_names s) (cs_prob s) (Some l) (Some st) (cs_fitted s) true, COk tt)
            end
          else (mkC (cs_names s) (cs_prob s) None (Some st) (cs_fitted s) true, COk tt)
      end
  end.

(** 541-591: one frame per counterfactual; base.py:44-47 *)
Record frame_shown := mkF { f_cols : list name; f_rows : list (list cell); f_outcome : option R }.
Definition show (only outcome : bool) (e : entry) : frame_shown :=
  mkF (e_cols e)
      (map (fun row => map2 (fun v x => if only && negb (zmem v (e_features e)) then Dash else x) (e_cols e) row) (e_rows e))
      (if outcome then Some (match e_type e with TContinuous => e_score e | _ => 1 / (1 + exp (- e_score e)) end) else None).
Definition cf_display (s : cstate) (only outcome : bool) : cres (list frame_shown) :=
  if negb (cs_generated s) then CErr NotGenerated else
  match cs_cfs s with None | Some [] => CErr NotFound | Some l => COk (map (show only outcome) l) end.
(** 659-667 *)
Definition cf_status (s : cstate) : cres (option status) := if negb (cs_generated s) then CErr NotGenerated else COk (cs_status s).

(** ** Histories: the scorecard is shared with the caller, who may refit it *)
Record cworld := mkW { w_card : card; w_sm : bool; w_s : cstate }.
Inductive cop (u : outside) := Fit (X : u_X u) | Generate (r : request) (a : answer) | SetSpecialMissing (b : bool) | RefitScorecard (c : card).
Arguments Fit {u}. Arguments Generate {u}. Arguments SetSpecialMissing {u}. Arguments RefitScorecard {u}.
Definition cstep (u : outside) (w : cworld) (o : cop u) : cworld * cres unit :=
  match o with
  | Fit X => let (s, e) := cf_fit u (w_card w) X (w_s w) in (mkW (w_card w) (w_sm w) s, e)
  | Generate r a => let (s, e) := cf_generate (w_card w) (w_sm w) (w_s w) r a in (mkW (w_card w) (w_sm w) s, e)
  | SetSpecialMissing b => (mkW (w_card w) b (w_s w), COk tt)
  | RefitScorecard c => (mkW c (w_sm w) (w_s w), COk tt)
  end.
Fixpoint crun (u : outside) (w : cworld) (ops : list (cop u)) : cworld * list (cres unit) :=
  match ops with [] => (w, []) | o :: l => let (w1, e) := cstep u w o in let (w2, es) := crun u w1 l in (w2, e :: es) end.
Definition new_cf (c : card) (sm : bool) : cworld := mkW c sm fresh_cf.
