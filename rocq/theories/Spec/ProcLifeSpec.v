(** Vocabulary for the BinningProcess as an object (C71). *)
From Coq Require Import List ZArith Bool QArith String Ascii.
From Verif Require Import Model.Arr Model.Core Model.Process Model.ProcLife.
Import ListNotations.
Open Scope Z_scope.

(** The calls that fit the process. *)
Definition is_fit {C Y W V} (c : call C Y W V) : Prop :=
  match c with KFit _ _ _ | KFitDisk _ _ _ | KFitDict _ => True | _ => False end.
(** The calls that need a fitted process. *)
Definition needs_fit {C Y W V} (c : call C Y W V) : Prop :=
  match c with KFit _ _ _ | KFitDisk _ _ _ | KFitDict _ | KSetParams _ => False | _ => True end.
(** A call that is admissible for a process over the variables [names]: set_params does not change variable_names, the keys of a
    dict are distinct. *)
Definition admissible {C Y W V} (names : list name) (c : call C Y W V) : Prop :=
  match c with KSetParams o => po_names o = names | KFitDict l => NoDup (map fst l) | _ => True end.
(** The result of a call. *)
Definition raises {V T} (a : answer V T) (e : exn) : Prop :=
  match a with
  | ADone r => r = Err e | ASummary r => r = Err e | AInfo r => r = Err e | AObject r => r = Err e | ASupport r => r = Err e
  | AData r => r = Err e
  end.
(** Every accepted update_binned_variable is followed by a summary() that succeeds. *)
Definition settled {C Y W V T} (l : list (call C Y W V * answer V T)) : Prop :=
  forall l1 n b l2, l = l1 ++ (KUpdate n b, ADone (Ok tt)) :: l2 -> exists r, In (KSummary, ASummary (Ok r)) l2.
(** Some fit of the history succeeded. *)
Definition some_fit_succeeded {C Y W V T} (l : list (call C Y W V * answer V T)) : Prop :=
  exists c, is_fit c /\ In (c, ADone (Ok tt)) l.

(** The value of a parameter: the last entry of binning_fit_params for it, else the process's. *)
Definition setting {A} (entry : fparam -> option A) (l : list fparam) (default : A) : A :=
  fold_left (fun a p => match entry p with Some v => v | None => a end) l default.
Definition fit_params_of (o : popts) (n : name) : list fparam := match dget (po_fit o) n with Some l => l | None => [] end.
Definition e_prebins p := match p with FPrebins v => Some v | _ => None end.
Definition e_prebin_size p := match p with FPrebinSize v => Some v | _ => None end.
Definition e_min_bins p := match p with FMinBins v => Some v | _ => None end.
Definition e_max_bins p := match p with FMaxBins v => Some v | _ => None end.
Definition e_min_size p := match p with FMinSize v => Some v | _ => None end.
Definition e_max_size p := match p with FMaxSize v => Some v | _ => None end.
Definition e_pvalue p := match p with FPvalue v => Some v | _ => None end.
Definition e_all p := match p with FAll v => Some v | _ => None end.
Definition e_special p := match p with FSpecial v => Some v | _ => None end.
Definition e_digits p := match p with FDigits v => Some v | _ => None end.
Definition e_rest p := match p with FRest v => Some v | _ => None end.
Definition e_name p := match p with FName v => Some v | _ => None end.
Definition e_cat p := match p with FCat v => Some v | _ => None end.
(** The parameters a variable's binning object should have, max_bin_size aside. [cat]: the column has dtype object or the variable
    is listed in categorical_variables. *)
Definition options_handed_over (o : popts) (n : name) (cat : bool) (v : vopts) : Prop :=
  let l := fit_params_of o n in
  v_name v = setting e_name l (Some n) /\ v_cat v = setting e_cat l cat /\
  v_prebins v = setting e_prebins l (po_prebins o) /\ v_prebin_size v = setting e_prebin_size l (po_prebin_size o) /\
  v_min_bins v = setting e_min_bins l (po_min_bins o) /\ v_max_bins v = setting e_max_bins l (po_max_bins o) /\
  v_min_size v = setting e_min_size l (po_min_size o) /\ v_pvalue v = setting e_pvalue l (po_pvalue o) /\
  v_all v = setting e_all l (po_all o) /\ v_special v = setting e_special l (po_special o) /\
  v_digits v = setting e_digits l (po_digits o) /\ v_rest v = setting e_rest l 0.
(** max_bin_size as the user set it. *)
Definition max_size_handed_over (o : popts) (n : name) (v : vopts) : Prop :=
  v_max_size v = setting e_max_size (fit_params_of o n) (po_max_size o).
Definition with_max_size (o : popts) (m : option Q) : popts :=
  mkPO (po_names o) (po_prebins o) (po_prebin_size o) (po_min_bins o) (po_max_bins o) (po_min_size o) m (po_pvalue o) (po_all o)
    (po_crit o) (po_fixed o) (po_cat o) (po_special o) (po_digits o) (po_fit o).
(** The class of binning object for a target type. *)
Definition class_of_target (k : tkind) (c : bclass) : Prop :=
  match k with TBinary => c = CBin | TContinuous => c = CCont | TMulticlass => c = CMulti | TUnsupported => False end.

(** A string without a dot. *)
Fixpoint dotless (s : string) : Prop := match s with EmptyString => True | String a r => a <> "."%char /\ dotless r end.

(** The documented ranges of the parameters. *)
Definition if_set {A} (P : A -> Prop) (x : option A) : Prop := forall a, x = Some a -> P a.
Definition if_both {A} (P : A -> A -> Prop) (x y : option A) : Prop := forall a b, x = Some a -> y = Some b -> P a b.
Definition in_range (o : popts) : Prop :=
  1 < po_prebins o /\ (0 < po_prebin_size o <= 1 # 2)%Q /\ if_set (fun v => 0 < v) (po_min_bins o) /\ if_set (fun v => 0 < v) (po_max_bins o) /\
  if_both Z.le (po_min_bins o) (po_max_bins o) /\ if_set (fun q => 0 < q <= 1 # 2)%Q (po_min_size o) /\ if_set (fun q => 0 < q <= 1)%Q (po_max_size o) /\
  if_both Qle (po_min_size o) (po_max_size o) /\ if_set (fun q => 0 < q <= 1)%Q (po_pvalue o) /\ if_set (fun d => 0 <= d <= 8) (po_digits o).

(** The rows of summary(): one per variable in the order of variable_names, with the statistics of its binning object for the target type [k]
    and, last, whether it is selected. *)
Definition reports {C Y W V T} (w : world C Y W V T) (o : popts) (s : pst V) (k : tkind) (rows : list (name * (tkind * var_stats) * bool)) : Prop :=
  Forall2 (fun n row => fst (fst row) = n /\ exists b v st, p_get o s n = Ok b /\ b_res b = Some v /\ w_stats w k (b_class b) v = Ok st /\ snd (fst row) = (k, st))
    (po_names o) rows /\
  p_support o s false false = Ok (SMask (map snd rows)).
