(** Vocabulary for histories of calls on a piecewise binning object. *)
From Coq Require Import List ZArith Reals Bool String.
From Verif Require Import Model.Arr Model.Core Model.Cont Model.Piecewise Model.PWLife.
Import ListNotations.
Open Scope Z_scope.

(** Calls that report results of the fit. *)
Definition p_query (c : pop) : Prop :=
  match c with PTransform _ _ _ _ _ _ _ _ | PSplits | PStatus | PTable => True | _ => False end.
(** Documented to require a fitted object. *)
Definition p_needs_fit := p_query.
(** The answer of a call. *)
Definition p_answer (e : pwenv) (o : pwobj) (c : pop) : res pval := snd (pstep e o c).
(** On a new object, the call leaves an object that is fitted (whose status can be read). *)
Definition fits_new (e : pwenv) (est : option Z) (c : pop) : Prop :=
  exists s, p_answer e (fst (pstep e (pnew est) c)) PStatus = Ok (PVStatus s).

(** s contains the word w. *)
Definition has_word (w s : string) : Prop := exists a b, s = (a ++ w ++ b)%string.
(** All the problems solved (one, or one per bin) have a status with the word w. *)
Definition all_have (w : string) (st : rstatus) : Prop :=
  match st with OneProblem s => has_word w s | PerBin l => Forall (has_word w) l end.
Definition none_has (w : string) (st : rstatus) : Prop :=
  match st with OneProblem s => ~ has_word w s | PerBin l => Forall (fun s => ~ has_word w s) l end.
Definition some_problem (st : rstatus) : Prop := st <> PerBin [].

(** The regression returns one polynomial per bin. *)
Definition one_poly_per_bin (e : pwenv) : Prop :=
  forall d p s lb ub st c, pe_regress e d p s lb ub = Ok (st, c) -> List.length c = S (List.length s).

(** The steps of a fit that succeed, up to the call of the inner binning: valid parameters, accepted data, and for the
    binary target an estimator that can be fitted on the clean records. *)
Definition starts_binning (e : pwenv) (est : option Z) (d : pdata) (check : bool) (pred : list R) : Prop :=
  pe_valid e = true /\ pd_bad d && check = false /\
  match pe_kind e with
  | PWBinary => pe_predict e (match est with None => 0 | Some s => s end) (clean_pairs e d) = Ok pred
  | PWContinuous => pred = map (fun xy => IZR (snd xy)) (clean_pairs e d)
  end.

(** Number of records of d with a missing value or target / with a special code (row j of the special rows) and a target
    that satisfies P. *)
Definition is_missing (r : xval * option Z) : bool := x_isnull (fst r) || match snd r with None => true | Some _ => false end.
Definition in_special_row (sp : special) (j : nat) (r : xval * option Z) : bool :=
  match sp with
  | SpNone => false
  | SpList l => Nat.eqb j 0 && isin l (fst r)
  | SpDict dd => match nth_error dd j with Some kv => isin (snd kv) (fst r) | None => false end
  end.
Definition nonevent (r : xval * option Z) : bool := match snd r with Some y => y =? 0 | None => false end.
Definition n_where (P : xval * option Z -> bool) (d : pdata) : Z := Z.of_nat (List.length (filter P (pd_recs d))).
Definition special_rows_count (sp : special) : nat := match sp with SpDict dd => List.length dd | _ => 1%nat end.
