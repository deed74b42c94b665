(** Vocabulary for histories of calls on a ContinuousOptimalBinning object. *)
From Coq Require Import List ZArith Bool.
From Verif Require Import Model.Arr Model.Core Model.CP Model.Cont Model.Lifecycle Model.ContLife Spec.CoreSpec.
Import ListNotations.
Open Scope Z_scope.

(** Some call of the given kind returned normally in the history [h] with outcomes [outs]. *)
Definition c_succeeded (P : cop -> Prop) (h : list cop) (outs : list (res cvalue)) : Prop :=
  exists i c v, nth_error h i = Some c /\ P c /\ nth_error outs i = Some (Ok v).
Definition c_called (P : cop -> Prop) (h : list cop) : Prop := exists c, In c h /\ P c.
Definition c_is_fit (c : cop) : Prop := exists d, c = CFit d.
Definition c_is_read (c : cop) : Prop := exists p, c = CReadJson p.

(** Methods and properties documented to require a fitted object and nothing else. *)
Definition c_needs_fit (c : cop) : Prop :=
  match c with
  | CTransform _ _ | CSplits | CStatus | CTable | CInformation | CToJson _ | CBuild _ _ => True
  | _ => False
  end.
(** Calls that report results of the fit. *)
Definition c_query (c : cop) : Prop :=
  match c with
  | CTransform _ _ | CSplits | CStatus | CTable | CBuild _ _ | CPlot _ | CAnalysis _ | CStatistic | CQualityScore => True
  | _ => False
  end.
(** Calls that do not involve the binning table: what they report does not depend on the Std, Min and Max columns. *)
Definition c_basic (c : cop) : Prop := match c with CTransform _ _ | CSplits | CStatus => True | _ => False end.
Definition c_same_answers (e : cenv) (o1 o2 : cobj) : Prop :=
  forall fs c, c_query c -> snd (cstep e (o1, fs) c) = snd (cstep e (o2, fs) c).

(** The records with a missing value or target / neither missing nor special. *)
Definition missing_records (d : cdata) : list krec := filter k_missing (cd_recs d).
Definition c_clean_record (e : cenv) (r : krec) : Prop :=
  exists z y, k_x r = XNum z /\ k_y r = Some y /\ ~ In (XNum z) (flat_codes (ce_special e)).
Definition c_has_clean (e : cenv) (d : cdata) : Prop := exists r, In r (cd_recs d) /\ c_clean_record e r.

(** What post-processing assumes of the optimiser when it answers. *)
Definition c_answers_fit (e : cenv) : Prop :=
  forall f n st status sol, ce_solver e f n st = Ok (status, sol) -> length sol = length st /\ last sol false = true.
Definition c_prebin_sorted (e : cenv) : Prop := forall l s, ce_prebin e l = Ok s -> nondecreasing s.

(** Rows with the same Count, Sum and Zeros count (the other columns that differ are Std, Min, Max). *)
Definition same_counts (a b : trow) : Prop := r_n a = r_n b /\ r_sum a = r_sum b /\ r_zero a = r_zero b.
(** Two tables that agree except possibly in Std, Min and Max of the last (Missing) row. *)
Definition same_but_missing (a b : list trow) : Prop :=
  exists rows x y, a = rows ++ [x] /\ b = rows ++ [y] /\ same_counts x y.

(** The data of the fits of a history, oldest first. *)
Fixpoint fit_data (h : list cop) : list cdata :=
  match h with [] => [] | CFit d :: r => d :: fit_data r | _ :: r => fit_data r end.
(** The missing records of the last data set that has any; [] if none has. *)
Fixpoint last_missing (ds : list cdata) : list krec :=
  match ds with
  | [] => []
  | d :: r => match last_missing r with [] => missing_records d | l => l end
  end.
(** Std, Min and Max that describe a list of missing records (NaN for an empty list). *)
Definition describes (l : list krec) (row : trow) : Prop :=
  r_std row = match l with [] => StdNaN | _ => nstd_of (map k_prod l) end /\
  r_min row = match l with [] => ENaN | _ => nmin (map k_prod l) end /\
  r_max row = match l with [] => ENaN | _ => nmax (map k_prod l) end.
Definition all_fits_ok (h : list cop) (outs : list (res cvalue)) : Prop :=
  forall i d, nth_error h i = Some (CFit d) -> exists v, nth_error outs i = Some (Ok v).

Definition c_same_contents (a b : ctable) : Prop :=
  ct_special a = ct_special b /\ ct_splits a = ct_splits b /\ ct_rows a = ct_rows b /\
  ct_min a = ct_min b /\ ct_max a = ct_max b /\ option_map snd (ct_user a) = option_map snd (ct_user b).
