(** Counterfactual explanations of a scorecard: optbinning/scorecard/counterfactual/{counterfactual,model_data,mip,multi_mip}.py.
    Real arithmetic.  CFMIP (n_cf = 1) and MCFMIP post the same constraints for every counterfactual k; the diversity constraints
    between pairs k < l do not exist for one counterfactual, so one model with K counterfactuals covers both classes.  (MCFMIP
    posts every constraint K times.) *)
From Coq Require Import List ZArith Bool Arith Reals.
From Verif Require Import Model.Arr Model.Core Model.Cat Model.Metrics Model.Scorecard.
Import ListNotations.
Open Scope R_scope.

Definition sumn (n : nat) (f : nat -> R) : R := rsum (map f (seq 0 n)).
Definition b2r (b : bool) : R := if b then 1 else 0.
Definition b2z (b : bool) : Z := if b then 1%Z else 0%Z.

(** model_data.py:12-36, one variable: the rows (index, metric) with another metric than the query; without special_missing the
    last two rows are left out. *)
Definition candidates (special_missing : bool) (metric : list R) (x : R) : list (nat * R) :=
  let rows := if special_missing then metric else firstn (length metric - 2) metric in
  filter (fun jm => if Req_EM_T (snd jm) x then false else true) (combine (seq 0 (length rows)) rows).

(** counterfactual.py:596-604 and binning_process.py:786: the query is transformed with metric_special=0, metric_missing=0,
    whatever the scorecard was fitted with *)
Fixpoint transform_query (vars : list svar) (q : list xval) : res (list R) :=
  match vars, q with
  | [], _ => Ok []
  | v :: vr, x :: qr => rbind (sv_value (Const true 0) (Const true 0) v x) (fun a => rbind (transform_query vr qr) (fun r => Ok (a :: r)))
  | _, _ => Err OtherError
  end.

(** Problem data: problem_data.py and model_data.py. [d_wr]: 1 / (max - min) of the points; [d_F], [d_mu]: Mahalanobis factors and
    means of the training data; [d_pw]: segments ((lower, upper), (c0, c1)) of the piecewise linear logistic function (utils.py). *)
Record cfdata := { d_cand : list (list (nat * R)); d_x : list R; d_coef : list R; d_int : R;
                   d_wr : list R; d_F : nat -> nat -> R; d_mu : list R; d_pw : list ((R * R) * (R * R)) }.
Definition d_p (D : cfdata) : nat := length (d_coef D).
Definition cnd (D : cfdata) (i : nat) : list (nat * R) := nth i (d_cand D) [].
Definition xi (D : cfdata) (i : nat) : R := nth i (d_x D) 0.
Definition make_data (special_missing : bool) (vars : list svar) (x : list R) (intercept : R) (wr : list R) (F : nat -> nat -> R)
    (mu : list R) (pw : list ((R * R) * (R * R))) : cfdata :=
  {| d_cand := map2 (fun v a => candidates special_missing (sv_metric v) a) vars x; d_x := x; d_coef := map sv_coef vars;
     d_int := intercept; d_wr := wr; d_F := F; d_mu := mu; d_pw := pw |}.

(** Request: the objectives and soft constraints with their weights, the hard constraints, max_changes and the non-actionable
    features (counterfactual.py:407-430, 606-637). *)
Record cfparams := { g_prox : option R; g_close : option R; g_diff : option R; g_wdivf : option R; g_wdivv : option R;
                     g_min : bool; g_max : bool; g_divf : bool; g_divv : bool; g_maxch : Z; g_nonact : list nat }.
Inductive outcome := OBin (one : bool) | OProb (y : R) | OCont (y : R).

(** counterfactual.py:630-637: indices of the features not listed as actionable *)
Definition non_actionable (p : nat) (actionable : option (list nat)) : list nat :=
  match actionable with None => [] | Some l => filter (fun i => negb (existsb (Nat.eqb i) l)) (seq 0 p) end.
(** counterfactual.py:414-418 *)
Definition max_changes (p : nat) (m : option Z) : Z := match m with None => Z.of_nat (Nat.div p 2) | Some n => n end.

(** Decision variables of one counterfactual: mip.py:217-262, multi_mip.py:257-320 *)
Record cfvars := { v_xp : nat -> R; v_tp : nat -> R; v_tm : nat -> R; v_mp : nat -> R; v_mm : nat -> R;
                   v_a : nat -> Z; v_z : nat -> list bool; v_qp : R; v_qm : R; v_f : R; v_h : nat -> R; v_s : nat -> bool }.
(** x + sum (metric - x) z *)
Definition newx (D : cfdata) (z : nat -> list bool) (i : nat) : R :=
  xi D i + rsum (map2 (fun jm b => (snd jm - xi D i) * b2r b) (cnd D i) (z i)).
Definition activation (D : cfdata) (V : cfvars) : R := d_int D + sumn (d_p D) (fun i => nth i (d_coef D) 0 * v_xp V i).

(** mip.py:264-273 *)
Definition c_proximity (D : cfdata) (V : cfvars) : Prop := forall i, (i < d_p D)%nat ->
  0 <= v_tp V i /\ 0 <= v_tm V i /\ v_tp V i - v_tm V i = xi D i - v_xp V i /\ v_xp V i = newx D (v_z V) i.
(** mip.py:275-279 *)
Definition maha (D : cfdata) (x : nat -> R) (i : nat) : R :=
  rsum (map (fun j => d_F D j i * (x j - nth j (d_mu D) 0)) (seq i (d_p D - i))).
Definition c_closeness (D : cfdata) (V : cfvars) : Prop := forall i, (i < d_p D)%nat ->
  0 <= v_mp V i /\ 0 <= v_mm V i /\ v_mp V i - v_mm V i = maha D (v_xp V) i.
(** mip.py:281-290 *)
Definition c_changes (G : cfparams) (D : cfdata) (V : cfvars) : Prop :=
  (forall i, (i < d_p D)%nat -> length (v_z V i) = length (cnd D i) /\ v_a V i = Z.of_nat (count_true (v_z V i)) /\ (v_a V i <= 1)%Z) /\
  (zsum (map (v_a V) (seq 0 (d_p D))) <= g_maxch G)%Z /\
  (forall i, In i (g_nonact G) -> v_a V i = 0%Z).
(** mip.py:292-341 *)
Definition c_pw (D : cfdata) (V : cfvars) : Prop :=
  0 <= v_f V <= 1 /\ let n := length (d_pw D) in let seg r := nth r (d_pw D) ((0, 0), (0, 0)) in
  sumn n (v_h V) = activation D V /\
  sumn n (fun r => snd (snd (seg r)) * v_h V r + fst (snd (seg r)) * b2r (v_s V r)) = v_f V /\
  sumn n (fun r => b2r (v_s V r)) = 1 /\
  forall r, (r < n)%nat -> fst (fst (seg r)) * b2r (v_s V r) <= v_h V r /\ v_h V r <= snd (fst (seg r)) * b2r (v_s V r).
Definition c_target (G : cfparams) (y out : R) (V : cfvars) : Prop :=
  (g_min G = true -> out >= y) /\ (g_max G = true -> out <= y) /\
  (g_diff G <> None -> 0 <= v_qp V /\ 0 <= v_qm V /\ v_qp V - v_qm V = out - y).
Definition c_outcome (G : cfparams) (D : cfdata) (o : outcome) (V : cfvars) : Prop :=
  match o with
  | OBin true => activation D V >= 1 / 1000000
  | OBin false => activation D V <= 0
  | OProb y => c_pw D V /\ c_target G y (v_f V) V
  | OCont y => c_target G y (activation D V) V
  end.
Definition feasible1 (G : cfparams) (D : cfdata) (o : outcome) (V : cfvars) : Prop :=
  (g_prox G <> None -> c_proximity D V) /\ (g_close G <> None -> c_closeness D V) /\ c_changes G D V /\ c_outcome G D o V.

(** multi_mip.py:78-104: for every pair k < l, u (features) and d (bins) *)
Record cfsol := { s_V : nat -> cfvars; s_u : nat -> nat -> nat -> bool; s_d : nat -> nat -> nat -> list bool }.
Definition is_xor (u : bool) (a b : Z) : Prop := (b2z u <= a + b /\ b2z u >= a - b /\ b2z u >= b - a /\ b2z u <= 2 - a - b)%Z.
Definition diverse (G : cfparams) (D : cfdata) (K : nat) (S : cfsol) : Prop := forall k l, (k < l < K)%nat ->
  (forall i, (i < d_p D)%nat -> is_xor (s_u S k l i) (v_a (s_V S k) i) (v_a (s_V S l) i) /\
     length (s_d S k l i) = length (cnd D i) /\
     (forall j, (j < length (cnd D i))%nat ->
        is_xor (nth j (s_d S k l i) false) (b2z (nth j (v_z (s_V S k) i) false)) (b2z (nth j (v_z (s_V S l) i) false))) /\
     (g_divv G = true -> (Z.of_nat (count_true (s_d S k l i)) >= v_a (s_V S k) i + v_a (s_V S l) i - 1)%Z)) /\
  (g_divf G = true -> (Z.of_nat (count_true (map (s_u S k l) (seq 0 (d_p D)))) >= 1)%Z).
Definition feasible (G : cfparams) (D : cfdata) (o : outcome) (K : nat) (S : cfsol) : Prop :=
  (forall k, (k < K)%nat -> feasible1 G D o (s_V S k)) /\ diverse G D K S.

(** Objectives: mip.py:343-376, multi_mip.py:405-452 *)
Inductive oname := NProx | NClose | NDiff | NDivF | NDivV.
Definition pairs_sum (K : nat) (f : nat -> nat -> R) : R := sumn K (fun k => rsum (map (f k) (seq (S k) (K - S k)))).
Definition obj (D : cfdata) (K : nat) (S : cfsol) (n : oname) : R :=
  match n with
  | NProx => sumn K (fun k => sumn (d_p D) (fun i => nth i (d_wr D) 0 * (v_tp (s_V S k) i + v_tm (s_V S k) i)))
  | NClose => sumn K (fun k => sumn (d_p D) (fun i => v_mp (s_V S k) i + v_mm (s_V S k) i))
  | NDiff => sumn K (fun k => v_qp (s_V S k) + v_qm (s_V S k))
  | NDivF => - pairs_sum K (fun k l => INR (count_true (map (s_u S k l) (seq 0 (d_p D)))))
  | NDivV => - pairs_sum K (fun k l => sumn (d_p D) (fun i => INR (count_true (s_d S k l i))))
  end.
Definition weight_of_obj (G : cfparams) (n : oname) : option R :=
  match n with NProx => g_prox G | NClose => g_close G | NDiff => g_diff G | NDivF => g_wdivf G | NDivV => g_wdivv G end.
Definition all_names := [NProx; NClose; NDiff; NDivF; NDivV].
(** mip.py:63-71: method="weighted" *)
Definition weighted_cost (G : cfparams) (D : cfdata) (K : nat) (S : cfsol) : R :=
  rsum (map (fun n => match weight_of_obj G n with Some w => w * obj D K S n | None => 0 end) all_names).

(** mip.py:108-189: method="hierarchical". 108-113: [sorted(weights.items(), key=value, reverse=True)] is stable: the
    objectives by descending weight; equal weights in the order of the dict *)
Fixpoint insert_desc (x : oname * R) (l : list (oname * R)) : list (oname * R) :=
  match l with
  | [] => [x]
  | y :: r => if Rle_dec (snd y) (snd x) then x :: l else y :: insert_desc x r
  end.
Definition hier_names (items : list (oname * R)) : list oname := map fst (fold_right insert_desc [] items).
(** constraints of a stage (135-145): previous objectives may degrade by at most priority_tol *)
Definition within_tol (tol : R) (D : cfdata) (K : nat) (S : cfsol) (pre : list (oname * R)) : Prop :=
  forall n v, In (n, v) pre -> exists dp dm, 0 <= dp /\ 0 <= dm /\ dp - dm = obj D K S n - v /\ dp + dm <= tol * Rabs v.
Definition stage_best (tol : R) (G : cfparams) (D : cfdata) (o : outcome) (K : nat) (n : oname) (pre : list (oname * R)) (S : cfsol) : Prop :=
  feasible G D o K S /\ within_tol tol D K S pre /\
  forall S', feasible G D o K S' -> within_tol tol D K S' pre -> obj D K S n <= obj D K S' n.
(** the answer of the last stage, every stage solved to optimality; an earlier stage without solution raises *)
Inductive hierarchical (tol : R) (G : cfparams) (D : cfdata) (o : outcome) (K : nat) : list oname -> list (oname * R) -> cfsol -> Prop :=
| h_last : forall n pre S, stage_best tol G D o K n pre S -> hierarchical tol G D o K [n] pre S
| h_next : forall n m rest pre S0 S, stage_best tol G D o K n pre S0 ->
    hierarchical tol G D o K (m :: rest) (pre ++ [(n, obj D K S0 n)]) S -> hierarchical tol G D o K (n :: m :: rest) pre S.

(** counterfactual.py:573-594: for every feature the selected rows (empty: the value of the query is kept), and the score *)
Definition new_index (D : cfdata) (z : nat -> list bool) (i : nat) : list nat := select (z i) (map fst (cnd D i)).
Definition cf_score (D : cfdata) (z : nat -> list bool) : R :=
  sumn (d_p D) (fun i => nth i (d_coef D) 0 * newx D z i) + d_int D.
(** what display() shows for a feature: assigning several bins to the single row of the query raises *)
Inductive shown := Kept | NewBin (row : nat).
Definition shown_feature (D : cfdata) (z : nat -> list bool) (i : nat) : res shown :=
  match new_index D z i with [] => Ok Kept | [j] => Ok (NewBin j) | _ => Err ValueError end.
(** display(show_outcome=True), 560-568, for outcome types binary and probability *)
Definition shown_probability (D : cfdata) (z : nat -> list bool) : R := 1 / (1 + exp (- cf_score D z)).
