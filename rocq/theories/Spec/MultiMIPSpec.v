(** Vocabulary for a multiclass target with solver="mip". *)
From Coq Require Import List ZArith Bool QArith Reals.
From Verif Require Import Model.Arr Model.Core Model.CP Model.MIP Model.Multi Model.MultiMIP Spec.CPSpec Spec.CPFitSpec Spec.MIPSpec Spec.MultiSpec.
Import ListNotations.

(** there were splits after refinement, the solver found the 0/1 assignment X satisfying the constraints posted and reports exactly
    these values *)
Definition mm_solved (f : mfitted) (solver : list (list Z * list Z) -> list bool) (g : mmip_cfg) (X : mat) : Prop :=
  let cols := mp_cols (mf_prebins f) in
  let n := S (length (mp_splits (mf_prebins f))) in
  mp_splits (mf_prebins f) <> [] /\ solver cols = mip_vector (map (fun i => IZR (X i i)) (seq 0 n)) /\ mm_feasible n cols g X.
(** the trends that are honoured: exactly (real arithmetic) *)
Definition class_trend_holds (t : trend) (rows : list (Z * Z)) : Prop :=
  match t with TAscending | TDescending | TPeak | TValley => trend_holds t rows | _ => True end.
