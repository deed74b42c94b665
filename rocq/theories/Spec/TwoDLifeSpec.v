(** Vocabulary for histories of calls on a two-dimensional binning object. *)
From Coq Require Import List ZArith QArith Bool String.
From Verif Require Import Model.Arr Model.Core Model.TwoD Model.TwoDCont Model.TwoDCart Model.TwoDLife.
Import ListNotations.
Open Scope Z_scope.

(** The answer of a call. *)
Definition ask2 {S} (e : env2 S) (o : obj2) (c : op2 S) : res val2 := snd (step2 e o c).
(** The call fits the object: a fit or fit_transform whose fit returns normally on a new object. *)
Definition fits2 {S} (e : env2 S) (c : op2 S) : Prop :=
  exists d check, (c = OFit d check \/ exists m, c = OFitTransform d check m) /\ ask2 e new2 (OFit d check) = Ok V2None.
Definition is_read {S} (c : op2 S) : Prop := exists r, c = OReadJson r.
(** Methods documented to need a fitted object. *)
Definition needs_fit2 {S} (c : op2 S) : Prop :=
  match c with OTransform _ _ _ _ | OSplits | OStatus | OTable | OInformation _ | OToJson true | OBuild _ | OAnalysis => True | _ => False end.
(** Methods that report the bins: transform, splits, binning_table, build and analysis of the table. *)
Definition reports_bins {S} (c : op2 S) : Prop :=
  match c with OTransform _ _ _ _ | OSplits | OTable | OBuild _ | OAnalysis => True | _ => False end.
Definition is_fit {S} (c : op2 S) : Prop := match c with OFit _ _ | OFitTransform _ _ _ => True | _ => False end.

(** The axes a fit uses: the categories of the clean samples. *)
Definition clean_of {S} (e : env2 S) (d : data2 S) : list S := filter (kd_clean (e_kind e) (e_cx e) (e_cy e)) (d_samples d).
Definition fit_axis_x {S} (e : env2 S) (d : data2 S) : axis := if e_cat_x e then ACat (e_cats_x e (clean_of e d)) else ANum.
Definition fit_axis_y {S} (e : env2 S) (d : data2 S) : axis := if e_cat_y e then ACat (e_cats_y e (clean_of e d)) else ANum.
(** What the solver returns, without its status. *)
Definition solution_of {S} (e : env2 S) : nat -> nat -> rdata -> list Q -> list Z -> option (list bool) :=
  fun m n rd er nr => option_map snd (e_solve e m n rd er nr).
(** splits as shown to the user *)
Definition splits_shown (a : axis) (b : ivs) : shown_splits :=
  match a with ANum => Bounds (Some b) | ACat cats => Categories (map (fun iv => bin_cats iv cats) b) end.
(** The fit gets as far as the optimiser: parameters and data accepted, both axes pre-binned, and the tree grown (strategy cart). *)
Definition reaches_optimiser {S} (e : env2 S) (d : data2 S) (check : bool) : Prop :=
  e_valid e = true /\ (d_bad d && check)%bool = false /\
  exists sx sy, e_pre_x e (List.length (d_samples d)) (fit_axis_x e d) (clean_of e d) = Ok sx /\
    e_pre_y e (List.length (d_samples d)) (fit_axis_y e d) (clean_of e d) = Ok sy /\
    match e_grow e with None => True | Some g => exists t, g sx sy (fit_axis_x e d) (fit_axis_y e d) (clean_of e d) = Ok t end.
